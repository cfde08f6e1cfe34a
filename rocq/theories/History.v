(** The whole history of a context: what holds of the committed store after any number of
    commands. *)
From Verif Require Import Snapshot Context StoreSpec MapFacts AstFacts StoreFacts StoreInv RangeFacts.
From Coq Require Import List String.
Import ListNotations.
Local Open Scope zia_scope.

Definition size (s : snapshot) : nat := List.length (concepts s).
Definition below (n : nat) (id : cid) : Prop :=
  match id with Committed k => k < n | Uncommitted _ => True end.

(** Every identifier in the store is that of a concept. *)
Record sane (s : snapshot) : Prop := Sane {
  sane_numbers : self_numbered s;
  sane_ids : ok_snap (below (size s)) s;
  sane_prev : forall u n, In (u, n) (prev_unc s) -> n < size s
}.

Lemma okc_mono {I} (P Q : I -> Prop) c : (forall i, P i -> Q i) -> okc P c -> okc Q c.
Proof.
  intros H (A & B & C & D & E). split; [auto|]. split; [|split; [|split]].
  - intros k v X. destruct (B k v X). auto.
  - intros k v X. destruct (C k v X). auto.
  - auto.
  - unfold okspec in *. destruct (c_spec c) as [|[] []|]; intuition.
Qed.

Lemma to_committed_lt s id k :
  sane s -> below (size s) id -> to_committed s id = Ok k -> k < size s.
Proof.
  intros S B. destruct id as [n|u]; cbn.
  - intros [= <-]. exact B.
  - intros E. apply unwrap_ok in E. apply (aget_in _ Nat.eqb_spec) in E. apply (sane_prev s S _ _ E).
Qed.

Lemma size_base s d s' us :
  overrides us (base_of s d) s' ->
  size s' = match d with DNew _ => S (size s) | _ => size s end.
Proof.
  intros [L _]. unfold size. rewrite L. destruct d; cbn; try reflexivity.
  rewrite app_length. cbn. lia.
Qed.

Section Okc.
  Variable Q : nat -> Prop.
  Lemma okc_plain n sp : Q n -> okspec Q sp -> okc Q (plain n sp).
  Proof.
    intros. split; [auto|]. split; [intros ? ? []|]. split; [intros ? ? []|]. split; [intros ? []|auto].
  Qed.
  Lemma okc_left c m : okc Q c -> (forall k v, In (k, v) m -> Q k /\ Q v) -> okc Q (set_left c m).
  Proof. intros (A & B & C & D & E) H. split; [exact A|]. split; [exact H|auto]. Qed.
  Lemma okc_right c m : okc Q c -> (forall k v, In (k, v) m -> Q k /\ Q v) -> okc Q (set_right c m).
  Proof. intros (A & B & C & D & E) H. split; [exact A|]. split; [exact B|]. split; auto. Qed.
  Lemma okc_from c m : okc Q c -> (forall k, In k m -> Q k) -> okc Q (set_from c m).
  Proof.
    intros (A & B & C & D & E) H. split; [exact A|]. split; [exact B|]. split; [exact C|]. split; auto.
  Qed.
  Lemma okc_spec c sp : okc Q c -> okspec Q sp -> okc Q (set_spec c sp).
  Proof. unfold okc. cbn. tauto. Qed.
  Lemma okc_spec_red c k red : okc Q c -> c_spec c = Abstract k red ->
    match red with Some r => Q r | None => True end.
  Proof. intros (_ & _ & _ & _ & E) H. rewrite H in E. apply E. Qed.
  Lemma okc_spec_comp c k red : okc Q c -> c_spec c = Abstract k red ->
    match k with Comp l r _ _ => Q l /\ Q r | Leaf _ => True end.
  Proof. intros (_ & _ & _ & _ & E) H. rewrite H in E. apply E. Qed.
  Lemma okm_insert dbg k v m m' : (forall a b, In (a, b) m -> Q a /\ Q b) -> Q k -> Q v ->
    insert_into Nat.eqb dbg k v m = Ok m' -> forall a b, In (a, b) m' -> Q a /\ Q b.
  Proof.
    unfold insert_into. intros H Hk Hv E a b I. oinv. subst.
    apply in_aset_weak in I. destruct I as [[= -> ->]|I]; auto.
  Qed.
  Lemma okm_del k m : (forall a b, In (a, b) m -> Q a /\ Q b) ->
    forall a b, In (a, b) (adel Nat.eqb k m) -> Q a /\ Q b.
  Proof. intros H a b I. apply in_adel_weak in I. auto. Qed.
  Lemma oks_add k m : (forall a, In a m -> Q a) -> Q k -> forall a, In a (sadd Nat.eqb k m) -> Q a.
  Proof. intros H K a I. apply in_sadd_weak in I. destruct I as [->|I]; auto. Qed.
  Lemma oks_del k m : (forall a, In a m -> Q a) -> forall a, In a (sdel Nat.eqb k m) -> Q a.
  Proof. intros H a I. unfold sdel in I. apply filter_In in I. apply H, I. Qed.
End Okc.

(** Identifiers stay in range. *)
Lemma effect_ok dbg s id d us n :
  sane s -> good_direct (below (size s)) d -> effect dbg s id d us ->
  n = (match d with DNew _ => S (size s) | _ => size s end) ->
  forall i c, In (i, c) us -> okc (fun k => k < n) c.
Proof.
  intros S G E N.
  assert (T : forall x k, to_committed s x = Ok k -> below (size s) x -> k < size s /\ k < n).
  { intros x k Ex B. pose proof (to_committed_lt s x k S B Ex). split; [auto|].
    subst n. destruct d; lia. }
  assert (L : forall k c, lookup s k = Some c -> okc (fun k => k < n) c).
  { intros k c Lk. eapply okc_mono; [|apply (proj1 (sane_ids s S) k c Lk)].
    cbn. subst n. destruct d; intros; lia. }
  assert (L' : forall k c, lookup (grown s) k = Some c -> (exists nd, d = DNew nd) ->
                           okc (fun k => k < n) c).
  { intros k c Lk (nd & ->). rewrite lookup_grown in Lk.
    destruct (Nat.eqb_spec k (List.length (concepts s))); [|eauto].
    injection Lk as <-. apply okc_plain; [subst; cbn; unfold size; lia|]. cbn. auto. }
  assert (M : forall nd, d = DNew nd -> List.length (concepts s) < n).
  { intros nd ->. subst n. unfold size. lia. }
  destruct E; cbn in G;
    repeat match goal with
    | H : _ /\ _ |- _ => destruct H
    | H : good (_, _) |- _ => destruct H; cbn [fst snd] in *
    end;
    repeat match goal with
    | H : to_committed s ?x = Ok ?k |- _ =>
      let H1 := fresh "T" in let H2 := fresh "T" in
      destruct (T _ _ H ltac:(assumption)) as [H1 H2]; clear H
    end;
    repeat match goal with
    | H : lookup s ?x = Some ?k |- _ => apply L in H
    | H : lookup (grown s) ?x = Some ?k |- _ => apply L' in H; [|eauto]
    end;
    try (specialize (M _ eq_refl));
    intros j c' I; cbn in I;
    repeat match goal with
    | H : _ \/ _ |- _ => destruct H
    | H : False |- _ => destruct H
    | H : (_, _) = (_, _) |- _ => injection H; clear H; intros; subst
    end;
    repeat match goal with
    | H : c_spec ?c = Abstract _ _, K : okc _ ?c |- _ =>
      lazymatch goal with
      | _ : okspec _ (Abstract _ _) |- _ => fail
      | _ => pose proof (proj2 (proj2 (proj2 (proj2 K)))); rewrite H in *
      end
    end;
    repeat match goal with K : okc _ ?c |- _ => progress pose proof K as (? & ? & ? & ? & ?); revert K end;
    intros;
    try (apply okc_plain; cbn; intuition; fail);
    try (first [apply okc_left|apply okc_right|apply okc_from|apply okc_spec]; auto;
         try (eapply (okm_insert (fun k => k < _)); [..|eassumption]; auto; fail);
         try (apply (okm_del (fun k => k < _)); auto; fail);
         try (apply (oks_add (fun k => k < _)); auto; fail);
         try (apply (oks_del (fun k => k < _)); auto; fail);
         cbn in *; intuition; fail);
    (split; [cbn; lia|]); cbn;
    repeat split; cbn; try tauto;
    repeat match goal with
    | H : _ \/ _ |- _ => destruct H
    | H : False |- _ => destruct H
    | H : (_, _) = (_, _) |- _ => injection H; clear H; intros; subst
    end; auto; try tauto; try lia;
    match goal with |- context [abstract_or_concrete ?cc] => destruct cc; cbn; auto end.
Qed.

Lemma sane_step dbg s id d s' :
  sane s -> good_direct (below (size s)) d -> apply_direct dbg id d s = Ok s' ->
  sane s' /\ size s' >= size s.
Proof.
  intros S G H. pose proof (step_self_numbered _ _ _ _ _ (sane_numbers s S) H) as W.
  apply apply_direct_effect in H; [|apply S]. destruct H as ((F1 & F2 & F3) & us & E & O).
  pose proof (size_base _ _ _ _ O) as Z.
  assert (LE : size s' >= size s) by (rewrite Z; destruct d; lia).
  split; [|exact LE]. destruct O as [_ O].
  split; [exact W| |].
  - split; [|split].
    + intros n c Lc. rewrite O in Lc. cbn.
      destruct (aget Nat.eqb n us) as [c'|] eqn:A.
      * destruct (lookup (base_of s d) n); [|discriminate]. injection Lc as <-.
        apply (aget_in _ Nat.eqb_spec) in A.
        apply (effect_ok dbg s id d us _ S G E Z n c' A).
      * assert (K : lookup s n = Some c \/ (c = make_free_variable n /\ n < size s')).
        { destruct d; cbn in Lc; auto. rewrite lookup_grown in Lc.
          destruct (Nat.eqb_spec n (List.length (concepts s))); auto. injection Lc as <-.
          right. split; [subst; reflexivity|]. rewrite Z. subst. unfold size. lia. }
        destruct K as [K|[-> K]].
        -- eapply okc_mono; [|apply (proj1 (sane_ids s S) n c K)]. cbn. lia.
        -- apply okc_plain; cbn; auto.
    + intros t n I. rewrite F1 in I. cbn.
      assert (K : (n = size s /\ exists nd, d = DNew nd) \/ In (t, n) (string_map s)).
      { destruct d as [[]| | |]; auto. apply in_aset_weak in I.
        destruct I as [I|I]; [left; injection I as -> ->; split; [reflexivity|eauto]|auto]. }
      destruct K as [(-> & nd & ->)|K]; [rewrite Z; lia|].
      apply (proj1 (proj2 (sane_ids s S))) in K. cbn in K. lia.
    + intros n cc I. rewrite F2 in I. cbn.
      assert (K : (n = size s /\ exists nd, d = DNew nd) \/ In (n, cc) (concrete_concepts s)).
      { assert (X : forall n' cc', In (n, cc) (bimap_insert n' cc' (concrete_concepts s)) ->
                    n = n' \/ In (n, cc) (concrete_concepts s)).
        { intros n' cc' J. unfold bimap_insert in J. apply in_app_iff in J.
          destruct J as [J|[[= <- <-]|[]]]; [|auto]. apply filter_In in J. tauto. }
        destruct d as [[| | | |? ? []|? ? []|? []|]| | |]; auto;
          (apply X in I; destruct I as [->|I]; [left; split; [reflexivity|eauto]|auto]). }
      destruct K as [(-> & nd & ->)|K]; [rewrite Z; lia|].
      apply (proj2 (proj2 (sane_ids s S))) in K. cbn in K. lia.
  - intros u n I. rewrite F3 in I.
    assert (K : (n = size s /\ exists nd, d = DNew nd) \/ In (u, n) (prev_unc s)).
    { destruct d, id; auto. apply in_aset_weak in I.
      destruct I as [I|I]; [left; injection I as -> ->; split; [reflexivity|eauto]|auto]. }
    destruct K as [(-> & nd & ->)|K]; [rewrite Z; lia|].
    apply (sane_prev s S) in K. lia.
Qed.

(** ** Applying a delta *)
Section Apply.
  Variable dbg : bool.
  Lemma apply_directs_app ds1 ds2 s :
    apply_directs dbg (ds1 ++ ds2) s = obind (apply_directs dbg ds1 s) (apply_directs dbg ds2).
  Proof.
    revert s. induction ds1 as [|[id d] ds1 IH]; cbn; intros s; [reflexivity|].
    destruct (apply_direct dbg id d s); cbn; auto.
  Qed.

  (** An invariant kept by every well-formed change. *)
  Definition kept (Inv : snapshot -> Prop) : Prop :=
    forall s id d s', sane s -> good_direct (below (size s)) d ->
      apply_direct dbg id d s = Ok s' -> Inv s -> Inv s'.

  Lemma good_direct_mono (P Q : cid -> Prop) d :
    (forall i, P i -> Q i) -> good_direct P d -> good_direct Q d.
  Proof.
    intros H. destruct d as [[]|c [[]|[] []|[]]|c []|c]; cbn;
      unfold good, good_cid, good_change, good_prod; cbn; unfold good; intuition.
  Qed.
  Lemma below_mono n m : m >= n -> forall i, below n i -> below m i.
  Proof. intros L []; cbn; lia. Qed.

  Lemma directs_keep Inv ds s s' :
    kept Inv -> sane s -> (forall id d, In (id, d) ds -> good_direct (below (size s)) d) ->
    apply_directs dbg ds s = Ok s' -> Inv s -> Inv s' /\ sane s' /\ size s' >= size s.
  Proof.
    intros K. revert s. induction ds as [|[id d] ds IH]; cbn; intros s S G E I.
    - injection E as <-. auto.
    - apply obind_ok in E. destruct E as (s1 & E1 & E2).
      destruct (sane_step _ _ _ _ _ S (G id d (or_introl eq_refl)) E1) as [S1 L1].
      destruct (IH s1 S1) as (A & B & C); auto.
      + intros id' d' J. eapply good_direct_mono; [apply below_mono; exact L1|].
        apply (G id'). auto.
      + apply (K s id d s1 S); auto. apply (G id). auto.
      + split; [auto|]. split; [auto|]. lia.
  Qed.

  (** Strings: only the map from strings changes. *)
  Lemma apply_string_frame str ch s s' :
    apply_string dbg str ch s = Ok s' ->
    concepts s' = concepts s /\ concrete_concepts s' = concrete_concepts s /\
    prev_unc s' = prev_unc s /\
    (string_map s' = adel text_eqb str (string_map s) \/
     exists a k, (ch = Create a \/ exists b, ch = Update b a) /\ to_committed s a = Ok k /\
       string_map s' = aset text_eqb str k (string_map s)).
  Proof.
    destruct ch as [a|b a|b]; cbn; intros E; oinv; subst; cbn; repeat (split; [reflexivity|]).
    - right. eauto 8.
    - right. do 2 eexists. split; [right; eauto|]. split; [eassumption|reflexivity].
    - destruct (aget text_eqb str (string_map s)); [|discriminate]. injection E as <-.
      cbn. repeat (split; [reflexivity|]). left. reflexivity.
  Qed.

  Lemma sane_strings_change s s' :
    sane s -> concepts s' = concepts s -> concrete_concepts s' = concrete_concepts s ->
    (forall u n, In (u, n) (prev_unc s') -> In (u, n) (prev_unc s)) ->
    (forall t n, In (t, n) (string_map s') -> n < size s) -> sane s'.
  Proof.
    intros S E1 E2 E3 H. assert (Z : size s' = size s) by (unfold size; rewrite E1; reflexivity).
    split.
    - intros n c. unfold lookup. rewrite E1. apply (sane_numbers s S).
    - rewrite Z. split; [|split].
      + intros n c. unfold lookup. rewrite E1. apply (proj1 (sane_ids s S)).
      + intros t n I. apply (H t n I).
      + rewrite E2. apply (proj2 (proj2 (sane_ids s S))).
    - rewrite Z. intros u n I. apply (sane_prev s S u n). auto.
  Qed.

  Lemma sane_string str ch s s' :
    sane s -> good_change cid (below (size s)) ch -> apply_string dbg str ch s = Ok s' -> sane s'.
  Proof.
    intros S G E. apply apply_string_frame in E. destruct E as (E1 & E2 & E3 & E4).
    apply (sane_strings_change s); auto.
    - intros u n. rewrite E3. auto.
    - pose proof (proj1 (proj2 (sane_ids s S))) as K. intros t n I.
      destruct E4 as [E4|(a & k & C & T & E4)]; rewrite E4 in I.
      + apply in_adel_weak in I. apply K in I. exact I.
      + apply in_aset_weak in I. destruct I as [J|I]; [|apply K in I; exact I].
        injection J as -> ->. eapply to_committed_lt; eauto.
        destruct C as [->|(b & ->)]; cbn in G; [exact G|apply G].
  Qed.

  Lemma sane_strings ss s s' :
    sane s -> (forall t ch, In (t, ch) ss -> good_change cid (below (size s)) ch) ->
    apply_strings dbg ss s = Ok s' ->
    sane s' /\ concepts s' = concepts s /\ concrete_concepts s' = concrete_concepts s.
  Proof.
    revert s. induction ss as [|[t ch] ss IH]; cbn; intros s S G E.
    - injection E as <-. auto.
    - apply obind_ok in E. destruct E as (s1 & E1 & E2).
      pose proof (sane_string _ _ _ _ S (G t ch (or_introl eq_refl)) E1) as S1.
      apply apply_string_frame in E1. destruct E1 as (C1 & C2 & C3 & _).
      destruct (IH s1 S1) as (A & B & C).
      + unfold size. rewrite C1. eauto.
      + exact E2.
      + split; [exact A|]. split; congruence.
  Qed.
End Apply.

Lemma single_order d : layers d = [overlay d] -> delta_order d = d_order (overlay d).
Proof. unfold delta_order. intros ->. reflexivity. Qed.
Lemma iter_string_in dbg d ss t ch :
  layers d = [overlay d] -> delta_iter_string dbg d = Ok ss -> In (t, ch) ss ->
  aget text_eqb t (d_string (overlay d)) = Some ch.
Proof.
  unfold delta_iter_string. intros ->. cbn. intros E. oinv. subst.
  revert ss E0 H0. generalize (d_string (overlay d)) at 2 as ks.
  intros ks. induction ks as [|[s c] ks IH]; cbn; intros l E J; [injection E as <-; destruct J|].
  destruct (aget text_eqb s (d_string (overlay d))) as [v|] eqn:A; cbn in E; oinv; subst.
  - destruct J as [J|J]; [|eauto]. injection J as -> ->. exact A.
  - eauto.
Qed.

(** Applying a good delta. *)
Lemma apply_keeps dbg Inv d s s' :
  kept dbg Inv -> (forall s s', concepts s' = concepts s ->
                     concrete_concepts s' = concrete_concepts s -> Inv s -> Inv s') ->
  sane s -> layers d = [overlay d] -> good_delta (below (size s)) d ->
  apply dbg d s = Ok s' -> Inv s ->
  Inv s' /\ sane s' /\ size s' >= size s /\ prev_unc s' = [].
Proof.
  intros K KS S L G E I. unfold apply in E. oinv. subst.
  assert (G' : good_layer (below (size s)) (overlay d)).
  { apply G. rewrite L. left. reflexivity. }
  destruct G' as (G1 & G2 & G3).
  rewrite (single_order d L) in E1.
  assert (D : forall id x, In (id, x) (d_order (overlay d)) -> good_direct (below (size s)) x).
  { intros id x J. exact (proj2 (G3 _ J)). }
  destruct (directs_keep dbg Inv _ s x0 K S D E1 I) as (I1 & S1 & L1).
  assert (T : forall t ch, In (t, ch) x1 -> good_change cid (below (size x0)) ch).
  { intros t ch J. apply (iter_string_in _ _ _ _ _ L E2) in J.
    apply (aget_in _ text_eqb_spec) in J. pose proof (proj2 (G1 _ J)) as X.
    destruct ch; cbn in *; unfold good, good_cid in *;
      (eapply below_mono; [exact L1|]) || split; try apply X;
      (eapply below_mono; [exact L1|]); apply X. }
  destruct (sane_strings dbg _ x0 x2 S1 T E3) as (S2 & C1 & C2).
  split; [eapply KS; [| |exact I1]; cbn; auto|]. cbn.
  split; [|split; [unfold size in *; cbn; rewrite C1; exact L1|reflexivity]].
  apply (sane_strings_change x2); auto; cbn.
  - intros u n [].
  - intros t n J. apply (proj1 (proj2 (sane_ids _ S2)) t n J).
Qed.

(** ** Commands *)
Section Mono.
  Variables P Q : cid -> Prop.
  Hypothesis H : forall i, P i -> Q i.
  Lemma okt_mono t : okt P t -> okt Q t.
  Proof.
    induction t as [s [c|] k|s [c|] l IHl r IHr fv bv]; cbn; unfold good, good_option; intuition.
    - apply H. exact H0.
    - apply H. exact H1.
  Qed.
  Lemma cache_mono k : good_cache P k -> good_cache Q k.
  Proof.
    assert (R : forall r, good_rresult P r -> good_rresult Q r).
    { intros [[t r]|]; cbn; [|auto]. intros [A B]. split; [apply okt_mono; exact A|exact B]. }
    intros (A & B & C). split; [|split].
    - intros [x r] I. split; [exact Logic.I|]. apply R. exact (proj2 (A _ I)).
    - intros [x r] I. destruct (B _ I) as [B1 B2]. split; [apply H; exact B1|].
      apply okt_mono. exact B2.
    - intros [x r] I. destruct (C _ I) as [B1 B2]. split; [apply H; exact B1|]. apply R. exact B2.
  Qed.
End Mono.

Record ready (c : ctx) : Prop := Ready {
  ready_sane : sane (c_snap c);
  ready_prev : prev_unc (c_snap c) = [];
  ready_delta : c_delta c = delta_default;
  ready_cache : good_cache (below (size (c_snap c))) (c_cache c);
  ready_vars : c_vars c = [];
  ready_bound : c_bound c = []
}.

Lemma steps_single cfg P snap fuel d d' :
  steps cfg P snap fuel d d' -> layers d = [overlay d] -> layers d' = [overlay d'].
Proof.
  intros S. induction S as [d|d d1 x id d2 S IH L G U]; auto. intros E. specialize (IH E).
  destruct d1 as [o i]. cbn in *. injection IH as ->. oinv. subst. reflexivity.
Qed.

Lemma good_delta_default P : good_delta P delta_default.
Proof.
  intros l [<-|[]]. split; [|split]; intros ? [].
Qed.

Lemma kept_true dbg : kept dbg (fun _ => True).
Proof. intros ? ? ? ? ? ? ? ?. exact I. Qed.

(** A successful command records a list of well-formed changes and applies them. *)
Lemma execute_shape cfg fuel t c r c' :
  fair cfg -> ready c -> execute cfg fuel t c = Ok (r, c') ->
  ready c' /\
  exists d, steps cfg (below (size (c_snap c))) (c_snap c) fuel delta_default d /\
    good_delta (below (size (c_snap c))) d /\ layers d = [overlay d] /\
    apply (dbg cfg) d (c_snap c) = Ok (c_snap c').
Proof.
  intros F R E. unfold execute in E. apply obind_ok in E. destruct E as ([x c1] & E & E').
  destruct x as [x|]; [|discriminate]. injection E' as <- <-.
  unfold execute_without_closing_scope in E.
  apply bind_back in E. destruct E as (y & c2 & E1 & E2).
  unfold catch in E1. apply obind_ok in E1. destruct E1 as ([z c3] & E1 & E3).
  injection E3 as <- <-.
  apply bind_back in E2. destruct E2 as (u & c4 & E2 & E3).
  unfold commit in E2. destruct (pinned c3) eqn:Pn.
  { injection E2 as <- <-. destruct E3 as [? _]. discriminate. }
  apply obind_ok in E2. destruct E2 as (s' & A & E2). injection E2 as <- <-.
  injection E3 as <- <-. cbn.
  destruct R as [R1 R2 R3 R4 R5 R6].
  assert (C : cgood (below (size (c_snap c))) (c_snap c) c).
  { split; [reflexivity|]. rewrite R3, R5. split; [apply good_delta_default|].
    split; [exact R4|]. intros ? []. }
  pose proof (cok_run cfg F (below (size (c_snap c))) (fun u => I) (c_snap c)
                (sane_ids _ R1) fuel t c z c3 C E1) as (G & S & _).
  destruct G as (G1 & G2 & G3 & G4). rewrite R3 in S. rewrite G1 in A.
  assert (L : layers (c_delta c3) = [overlay (c_delta c3)]).
  { eapply steps_single; [exact S|reflexivity]. }
  destruct (apply_keeps (dbg cfg) (fun _ => True) (c_delta c3) (c_snap c) s'
              (kept_true _) ltac:(auto) R1 L G2 A I) as (_ & S' & Z & P').
  split; [|exists (c_delta c3); auto].
  split; cbn; auto. eapply cache_mono; [|exact G3]. apply below_mono. exact Z.
Qed.

(** The context just after the built-in concepts have been created. *)
Definition base_context : ctx :=
  Eval vm_compute in
    match obind (label_concrete_concepts cfg0 default_ctx) (fun '(_, c) => commit cfg0 c) with
    | Ok (_, c) => c | _ => default_ctx end.

Lemma base_context_eq cfg :
  obind (label_concrete_concepts cfg default_ctx) (fun '(r, c) =>
    match r with Val _ => commit cfg c | Fail _ => Panic "" end) = Ok (Val tt, base_context).
Proof. destruct cfg as [[] o]; vm_compute; reflexivity. Qed.

(** Contexts obtained from a new one by executing commands, in a debug ([true]) or release
    build.  The iteration orders of hash maps may differ from command to command. *)
Inductive reachable (b : bool) : ctx -> Prop :=
| reach_base : reachable b base_context
| reach_execute cfg fuel t c r c' :
    fair cfg -> dbg cfg = b ->
    reachable b c -> execute cfg fuel t c = Ok (r, c') -> reachable b c'.

Section Reachable.
  Variable cfg : config.
  Variable fuel : nat.
  Hypothesis F : fair cfg.
  Local Notation reachable := (reachable (dbg cfg)).
  Lemma reachable_setup cmds c r c' :
    reachable c -> run_setup cfg fuel cmds c = Ok (r, c') -> reachable c'.
  Proof.
    revert c. induction cmds as [|s cmds IH]; intros c R E.
    - injection E as <- <-. exact R.
    - cbn [run_setup] in E. apply bind_back in E. destruct E as (x & c1 & E1 & E2).
      apply obind_ok in E1. destruct E1 as ([y c2] & E1 & E3). injection E3 as <- <-.
      assert (R1 : reachable c2) by (eapply reach_execute; eauto).
      apply bind_back in E2. destruct E2 as (x & c3 & E2 & E3).
      apply lift_back in E2. destruct E2 as [-> _]. destruct x.
      + eauto.
      + destruct E3 as [_ ->]. exact R1.
  Qed.
  Lemma reachable_new c : new_context cfg fuel = Ok c -> reachable c.
  Proof.
    unfold new_context. intros E. apply obind_ok in E. destruct E as ([r c1] & E & E').
    destruct r; [|discriminate]. injection E' as <-. unfold setup in E.
    pose proof (base_context_eq cfg) as B. apply obind_ok in B. destruct B as ([x c2] & B1 & B2).
    apply bind_back in E. destruct E as (y & c3 & E1 & E2). rewrite B1 in E1.
    injection E1 as <- <-. destruct x as [x|]; [|discriminate].
    apply bind_back in E2. destruct E2 as (y & c3 & E1 & E2). rewrite B2 in E1.
    injection E1 as <- <-. eapply reachable_setup; [apply reach_base|exact E2].
  Qed.
  Lemma reachable_session cmds c rs c' :
    reachable c -> run_session cfg fuel cmds c = Ok (rs, c') -> reachable c'.
  Proof.
    revert c rs. induction cmds as [|t cmds IH]; cbn; intros c rs R E.
    - injection E as <- <-. exact R.
    - apply obind_ok in E. destruct E as ([r c1] & E1 & E2).
      apply obind_ok in E2. destruct E2 as ([rs' c2] & E2 & E3). injection E3 as <- <-.
      eapply IH; [eapply reach_execute; eauto|exact E2].
  Qed.
End Reachable.

(** Identifiers of the new context are in range: a decidable check. *)
Definition ltb_all (n : nat) (l : list nat) : bool := forallb (fun k => Nat.ltb k n) l.
Definition okcb (n : nat) (c : concept nat) : bool :=
  ltb_all n (c_id c :: map fst (lefthand_of c) ++ map snd (lefthand_of c) ++
             map fst (righthand_of c) ++ map snd (righthand_of c) ++ reduces_from c ++
             match c_spec c with
             | Abstract k red =>
               match k with Comp l r _ _ => [l; r] | Leaf _ => [] end ++
               match red with Some r => [r] | None => [] end
             | _ => []
             end).
Lemma okcb_spec n c : okcb n c = true -> okc (fun k => k < n) c.
Proof.
  unfold okcb, ltb_all. rewrite forallb_forall. intros H.
  assert (K : c_id c < n) by (apply Nat.ltb_lt, H; left; reflexivity).
  assert (K' : forall x, In x (map fst (lefthand_of c) ++ map snd (lefthand_of c) ++
             map fst (righthand_of c) ++ map snd (righthand_of c) ++ reduces_from c ++
             match c_spec c with
             | Abstract k red =>
               match k with Comp l r _ _ => [l; r] | Leaf _ => [] end ++
               match red with Some r => [r] | None => [] end
             | _ => []
             end) -> x < n).
  { intros x I. apply Nat.ltb_lt, H. right. exact I. }
  clear H.
  assert (M1 : forall (m : list (nat * nat)) k v, In (k, v) m -> In k (map fst m) /\ In v (map snd m)).
  { intros m k v I. split; apply in_map_iff; exists (k, v); auto. }
  split; [exact K|]. split; [|split; [|split]].
  - intros k v I. apply M1 in I. split; apply K'; rewrite !in_app_iff; tauto.
  - intros k v I. apply M1 in I. split; apply K'; rewrite !in_app_iff; tauto.
  - intros u I. apply K'. rewrite !in_app_iff; tauto.
  - unfold okspec.
    assert (X : forall x, In x (match c_spec c with
             | Abstract k red =>
               match k with Comp l r _ _ => [l; r] | Leaf _ => [] end ++
               match red with Some r => [r] | None => [] end
             | _ => []
             end) -> x < n).
    { intros x I. apply K'. rewrite !in_app_iff. tauto. }
    clear K'. destruct (c_spec c) as [|[|] []|]; cbn in *; auto 8.
Qed.

Lemma base_ready : ready base_context.
Proof.
  split; try reflexivity.
  - assert (Z : forallb (okcb (size (c_snap base_context))) (concepts (c_snap base_context)) = true)
      by (vm_compute; reflexivity).
    rewrite forallb_forall in Z.
    assert (Y : forallb (fun '(i, c) => Nat.eqb (c_id c) i)
                  (combine (seq 0 (size (c_snap base_context))) (concepts (c_snap base_context))) = true)
      by (vm_compute; reflexivity).
    assert (W : ltb_all (size (c_snap base_context))
                  (map snd (string_map (c_snap base_context)) ++
                   map fst (concrete_concepts (c_snap base_context))) = true)
      by (vm_compute; reflexivity).
    unfold ltb_all in W. rewrite forallb_forall in *.
    split.
    + intros n c L. pose proof (lookup_lt _ _ _ L) as N.
      assert (I : In (n, c) (combine (seq 0 (size (c_snap base_context))) (concepts (c_snap base_context)))).
      { unfold lookup in L. apply nth_error_split in L. destruct L as (a & b & E & Ln).
        unfold size. rewrite E. rewrite app_length. cbn [List.length].
        rewrite seq_app. cbn. rewrite <- Ln. clear.
        assert (X : forall k, In (k + List.length a, c)
                  (combine (seq k (List.length a) ++ (k + List.length a) :: seq (S (k + List.length a)) (List.length b)) (a ++ c :: b))).
        { induction a as [|x a IH]; intros k; cbn.
          - left. replace (k + 0) with k by lia. reflexivity.
          - right. replace (k + S (List.length a)) with (S k + List.length a) by lia.
            specialize (IH (S k)). exact IH. }
        apply (X 0). }
      apply Y in I. apply Nat.eqb_eq in I. exact I.
    + split; [|split].
      * intros n c L. apply okcb_spec, Z. eapply nth_error_In. exact L.
      * intros t n I. apply Nat.ltb_lt, W. apply in_app_iff. left.
        apply in_map_iff. exists (t, n). auto.
      * intros n cc I. apply Nat.ltb_lt, W. apply in_app_iff. right.
        apply in_map_iff. exists (n, cc). auto.
    + intros u n [].
  - split; [|split]; intros ? [].
Qed.

Lemma reachable_ready b c : reachable b c -> ready c.
Proof.
  intros R. induction R as [|cfg fuel t c r c' F D R IH E]; [apply base_ready|].
  apply (execute_shape cfg fuel t c r c' F IH E).
Qed.

(** An invariant kept by well-formed changes holds of every reachable context. *)
Lemma reachable_keeps b Inv c :
  kept b Inv ->
  (forall s s', concepts s' = concepts s -> concrete_concepts s' = concrete_concepts s ->
                Inv s -> Inv s') ->
  Inv (c_snap base_context) -> reachable b c -> Inv (c_snap c).
Proof.
  intros K KS B R. induction R as [|cfg fuel t c r c' F D R IH E]; [exact B|].
  pose proof (reachable_ready _ _ R) as Rd.
  destruct (execute_shape cfg fuel t c r c' F Rd E) as (_ & d & S & G & L & A).
  rewrite <- D in K.
  apply (apply_keeps (dbg cfg) Inv d _ _ K KS (ready_sane c Rd) L G A IH).
Qed.

(** A relation between the stores before and after, kept likewise. *)
Lemma execute_relates cfg fuel (Rel : snapshot -> snapshot -> Prop) t c r c' :
  fair cfg -> ready c -> (forall s, Rel s s) ->
  (forall s s1 id d s2, sane s1 -> good_direct (below (size s1)) d ->
     apply_direct (dbg cfg) id d s1 = Ok s2 -> Rel s s1 -> Rel s s2) ->
  (forall s s1 s2, concepts s2 = concepts s1 -> concrete_concepts s2 = concrete_concepts s1 ->
     Rel s s1 -> Rel s s2) ->
  execute cfg fuel t c = Ok (r, c') -> Rel (c_snap c) (c_snap c').
Proof.
  intros F Rd R0 RS RC E.
  destruct (execute_shape cfg fuel t c r c' F Rd E) as (_ & d & S & G & L & A).
  apply (apply_keeps (dbg cfg) (Rel (c_snap c)) d (c_snap c) (c_snap c')); eauto using ready_sane.
  intros s id x s' S1 G1 E1. apply (RS (c_snap c) s id x s' S1 G1 E1).
Qed.
