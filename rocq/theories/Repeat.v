(** Evaluating the same tree again: the answer that was remembered is given again. *)
From Verif Require Import Snapshot Search Questions MapFacts AstFacts StoreFacts LexerFacts SearchKeeps
  SearchCaches.
From Coq Require Import List PeanoNat Lia Bool.
Import ListNotations.
Local Open Scope zia_scope.

(** ** Specification *)
(** Everything known to the evaluator by way of the caches [hs] in the state [s1] is known in [s2]
    as well, with the same answers. *)
Definition remembers (hs : list nat) (s1 s2 : sstate) : Prop :=
  forall k r, lookup_red hs k (s_red s1) = Some r -> lookup_red hs k (s_red s2) = Some r.
(** The caches of an environment exist. *)
Definition caches_exist (hs : list nat) (s : sstate) : Prop :=
  forall h, In h hs -> lt h (List.length (s_red s)).
(** The answer [r] to the evaluation of [t] is one that is remembered. *)
Definition memorable (t : tree) (r : rresult) : Prop :=
  t_is_variable t = false /\ forall t' why, r = Some (t', why) -> t_key t' <> t_key t.

(** ** Proofs *)
Lemma lookup_app p hs k reds :
  lookup_red (p ++ hs) k reds = None -> lookup_red hs k reds = None.
Proof.
  induction p as [|h p IH]; [auto|]. cbn. destruct (aget _ _ _); [discriminate|exact IH].
Qed.
Lemma lookup_frame hs k reds reds' :
  (forall h, In h hs -> nth h reds' [] = nth h reds []) -> lookup_red hs k reds' = lookup_red hs k reds.
Proof.
  induction hs as [|h hs IH]; intros H; [reflexivity|]. cbn. rewrite (H h) by now left.
  destruct (aget _ _ _); [reflexivity|]. apply IH. intros i I. apply H. now right.
Qed.
Lemma nth_upd_other {A} i j f (l : list A) d : i <> j -> nth j (upd_nth i f l) d = nth j l d.
Proof.
  revert i j. induction l as [|x l IH]; intros [|i] [|j] H; cbn; try reflexivity; try congruence.
  apply IH. congruence.
Qed.
Lemma nth_upd_same {A} i f (l : list A) d : lt i (length l) -> nth i (upd_nth i f l) d = f (nth i l d).
Proof.
  revert i. induction l as [|x l IH]; intros [|i] H; cbn in *; try lia; [reflexivity|].
  apply IH. lia.
Qed.
Lemma lookup_other i k k' r hs reds :
  k' <> k -> lookup_red hs k' (upd_nth i (aset key_eqb k r) reds) = lookup_red hs k' reds.
Proof.
  intros H. induction hs as [|h hs IH]; [reflexivity|]. cbn.
  assert (X : aget key_eqb k' (nth h (upd_nth i (aset key_eqb k r) reds) []) = aget key_eqb k' (nth h reds [])).
  { destruct (Nat.eq_dec i h) as [->|D].
    - destruct (Nat.lt_ge_cases h (length reds)) as [Hl|Hl].
      + rewrite nth_upd_same by exact Hl. rewrite (aget_aset _ key_eqb_spec).
        destruct (key_eqb_spec k' k); [contradiction|reflexivity].
      + rewrite !nth_overflow; [reflexivity|lia|]. rewrite length_upd_nth. lia.
    - now rewrite nth_upd_other. }
  rewrite X, IH. reflexivity.
Qed.
Lemma lookup_head h hs k r reds :
  lt h (length reds) -> lookup_red (h :: hs) k (upd_nth h (aset key_eqb k r) reds) = Some r.
Proof.
  intros H. cbn. rewrite nth_upd_same by exact H. rewrite (aget_aset _ key_eqb_spec).
  destruct (key_eqb_spec k k); [reflexivity|congruence].
Qed.

Section Remember.
  Variables (cfg : config) (snap : snapshot) (rf : nat) (hs : list nat).
  (** The environments whose caches are [hs] and new ones. *)
  Definition extends_caches (e : env) : Prop :=
    exists p, e_reds e = p ++ hs /\ forall h, In h p -> ~ In h hs.
  Lemma remember_laws :
    cache_laws cfg snap rf (caches_exist hs) (remembers hs) extends_caches extends_caches (fun h => ~ In h hs).
  Proof.
    constructor; try (intros; assumption).
    - intros s _ k r H. exact H.
    - intros s1 s2 s3 H K k r E. apply K, H, E.
    - intros s n H. split; [exact H|]. intros k r E. exact E.
    - intros s h s' H [= <- <-]. split; [|split].
      + intros I. apply H in I. lia.
      + intros h I. cbn. rewrite app_length. apply H in I. lia.
      + intros k r E. cbn [s_red]. rewrite <- E. apply lookup_frame. intros h I. apply app_nth1, H, I.
    - intros e h d s e' s' (p & Ep & Hp) Hh _ H E. unfold spawn in E. apply sb in E.
      destruct E as (sy & s1 & [= <- <-] & [= <- <-]). split; [|split].
      + exists (h :: p). cbn. rewrite Ep. split; [reflexivity|]. intros i [<-|I]; [exact Hh|auto].
      + exact H.
      + intros k r E. exact E.
    - intros e c H. destruct c; exact H.
    - intros n e t s r s1 s2 (p & Ep & Hp) H N H1 K E _. unfold insert_reduction in E. injection E as <-.
      match goal with |- context [if ?b then _ else _] => destruct b end; [|auto]. cbn [s_red]. split.
      + intros h I. cbn. rewrite length_upd_nth. apply H1, I.
      + intros k q E. cbn [s_red]. destruct p as [|h p].
        * rewrite Ep in N. cbn [app] in N. rewrite lookup_other; [apply K, E|]. intros ->. congruence.
        * rewrite Ep. cbn [app hd]. rewrite (lookup_frame hs k (s_red s1)); [apply K, E|].
          intros i I. apply nth_upd_other. intros <-. eapply Hp; [now left|exact I].
    - intros n e c m t s s1 s2 _ H _ _ _ H1 K E _. unfold insert_syntax in E. injection E as <-.
      destruct (m_anonymous m); auto.
    - intros n e c t r s s1 s2 _ _ _ _ _ H2 _ _ _. split; [exact H2|]. intros k q E. exact E.
  Qed.
End Remember.

Section Repeat.
  Variables (cfg : config) (snap : snapshot) (rf : nat).
  Notation ops n := (search cfg snap rf n).
  Lemma own_caches e : extends_caches (e_reds e) e.
  Proof. exists []. split; [reflexivity|]. intros h []. Qed.

  (** The answer [r] was looked up or remembered, or the tree is built in and was not looked up. *)
  Lemma reduce_known n e t s r s' :
    e_reds e <> [] -> caches_exist (e_reds e) s -> o_reduce (ops n) e t s = Ok (r, s') -> memorable t r ->
    lookup_red (e_reds e) (t_key t) (s_red s') = Some r \/
    (s' = s /\ r = None /\ lookup_red (e_reds e) (t_key t) (s_red s) = None /\
     forall x, lookup_red (e_reds e) (t_key t) (s_red x) = None -> o_reduce (ops n) e t x = Ok (None, x)).
  Proof.
    intros NE C E (V & Hk). destruct n as [|n]; [discriminate|]. pose proof E as E0.
    cbn [search step o_reduce] in *. unfold reduce in E. apply sb in E. destruct E as (ca & s1 & Ec & E).
    injection Ec as Ec <-. destruct ca as [rr|].
    { injection E as -> ->. left. exact Ec. }
    apply sb in E. destruct E as (ty & s1 & E1 & E).
    assert (X : s1 = s /\ forall x, match t_concept t with Some c => concrete_type cfg snap e c | None => sret None end x = Ok (ty, x)).
    { destruct (t_concept t); [|injection E1 as <- <-; split; reflexivity].
      unfold concrete_type, slift in *. apply obind_ok in E1. destruct E1 as (y & E1 & [= -> ->]).
      split; [reflexivity|]. intros x. rewrite E1. reflexivity. }
    destruct X as [-> X]. destruct ty as [ty|].
    - injection E as <- <-. right. repeat (split; [assumption || reflexivity|]). intros x F.
      unfold reduce. unfold sbind at 1. unfold cached_reduction. cbn [obind]. rewrite F.
      unfold sbind at 1. rewrite X. reflexivity.
    - left. apply sb in E. destruct E as (rr & s2 & E2 & E). apply sb in E.
      destruct E as ([] & s3 & E3 & [= -> ->]). unfold insert_reduction in E3. injection E3 as <-.
      assert (Y : caches_exist (e_reds e) s2).
      { pose proof (remember_laws cfg snap rf (e_reds e)) as L.
        pose proof (search_kp_up_to _ _ _ _ _ _ _ _ L n) as O.
        assert (K : kp (caches_exist (e_reds e)) (remembers (e_reds e))
                  (or_else (opt_then (t_concept t) (reduce_concept cfg snap rf (ops n) e))
                     (opt_then (t_exp t) (fun '(l, r) => reduce_pair cfg snap rf (ops n) e l r)))).
        { apply (kp_or_else _ _ _ _ _ _ _ _ L); apply (kp_opt_then _ _ _ _ _ _ _ _ L).
          - intros c. apply (reduce_concept_kp _ _ _ _ _ _ _ _ L n O), own_caches.
          - intros [l r']. apply (reduce_pair_kp _ _ _ _ _ _ _ _ L n O), own_caches. }
        destruct (K _ _ _ C E2) as [Y _]. exact Y. }
      rewrite V. cbn [negb andb].
      assert (Z : match r with Some (t', _) => negb (key_eqb (t_key t') (t_key t)) | None => true end = true).
      { destruct r as [[t' why]|]; [|reflexivity].
        destruct (key_eqb_spec (t_key t') (t_key t)) as [Q|Q]; [|reflexivity]. destruct (Hk _ _ eq_refl Q). }
      rewrite Z. cbn [s_red]. destruct (e_reds e) as [|h hs]; [congruence|]. apply lookup_head, Y. now left.
  Qed.
  Lemma reduce_again n e t s r s' :
    e_reds e <> [] -> caches_exist (e_reds e) s -> o_reduce (ops n) e t s = Ok (r, s') -> memorable t r ->
    o_reduce (ops n) e t s' = Ok (r, s').
  Proof.
    intros NE C E M. destruct (reduce_known _ _ _ _ _ _ NE C E M) as [H|(-> & -> & H & K)].
    - destruct n as [|n]; [discriminate|]. cbn [search step o_reduce]. unfold reduce.
      unfold sbind at 1. unfold cached_reduction. cbn [obind]. rewrite H. reflexivity.
    - apply K, H.
  Qed.

  (** The trees that are met on the way from [t] to its normal form [x], from the state [s] of the
      search to the state [s']. *)
  Inductive trail (e : env) : nat -> tree -> sstate -> list tree -> tree -> sstate -> Prop :=
  | TrailEnd n t s s' : o_reduce (ops n) e t s = Ok (None, s') -> trail e (S n) t s [t] t s'
  | TrailStep n t s t1 why s1 l x s' :
      o_reduce (ops n) e t s = Ok (Some (t1, why), s1) -> trail e n t1 s1 l x s' ->
      trail e (S n) t s (t :: l) x s'.
  (** No two neighbours in the list have the same text and concept. *)
  Fixpoint progresses (l : list tree) : Prop :=
    match l with
    | t :: (t1 :: _) as l' => t_key t1 <> t_key t /\ progresses l'
    | _ => True
    end.
  Lemma trail_head e n t s l x s' : trail e n t s l x s' -> exists l', l = t :: l'.
  Proof. intros H. destruct H; eauto. Qed.
  (** There is only one way. *)
  Lemma trail_unique e n t s l x s' l1 x1 s1 :
    trail e n t s l x s' -> trail e n t s l1 x1 s1 -> l1 = l /\ x1 = x /\ s1 = s'.
  Proof.
    intros H. revert l1 x1 s1. induction H as [n t s s' E|n t s t1 why s2 l x s' E H IH];
      intros l1 x1 s1 G; inversion G; subst; clear G.
    - match goal with K : o_reduce _ _ _ _ = _ |- _ => rewrite E in K; injection K; intros; subst end. auto.
    - congruence.
    - congruence.
    - match goal with K : o_reduce _ _ _ _ = _ |- _ => rewrite E in K; injection K; intros; subst end.
      match goal with K : trail _ _ _ _ (?l') _ _ |- context [_ :: ?l'] => destruct (IH _ _ _ K) as (A & B & D) end.
      subst. auto.
  Qed.
  Lemma reduce_keeps_answers n e t s r s' :
    caches_exist (e_reds e) s -> o_reduce (ops n) e t s = Ok (r, s') ->
    caches_exist (e_reds e) s' /\ remembers (e_reds e) s s'.
  Proof.
    intros C E. eapply (kp_reduce _ _ _ _ (search_kp _ _ _ _ _ _ _ _ (remember_laws cfg snap rf (e_reds e)) n));
      [apply own_caches|exact C|exact E].
  Qed.
  Lemma reduce_alike n e t s r s' y :
    e_reds e <> [] -> caches_exist (e_reds e) s -> o_reduce (ops n) e t s = Ok (r, s') -> memorable t r ->
    (forall k, lookup_red (e_reds e) k (s_red y) = lookup_red (e_reds e) k (s_red s')) ->
    o_reduce (ops n) e t y = Ok (r, y).
  Proof.
    intros NE C E M A. destruct (reduce_known _ _ _ _ _ _ NE C E M) as [H|(-> & -> & H & K)].
    - destruct n as [|n]; [discriminate|]. cbn [search step o_reduce]. unfold reduce.
      unfold sbind at 1. unfold cached_reduction. cbn [obind]. rewrite A, H. reflexivity.
    - apply K. rewrite A. exact H.
  Qed.
  Lemma normal_form_trail n : forall e t w s x why s',
    o_nf (ops n) e t w s = Ok ((x, why), s') -> caches_exist (e_reds e) s ->
    remembers (e_reds e) s s' /\
    exists l, trail e n t s l x s' /\
      (e_reds e <> [] -> (forall v, In v l -> t_is_variable v = false) -> progresses l ->
       forall y, (forall k, lookup_red (e_reds e) k (s_red y) = lookup_red (e_reds e) k (s_red s')) ->
       o_nf (ops n) e t w y = Ok ((x, why), y)).
  Proof.
    induction n as [|n IH]; intros e t w s x why s' E C; [discriminate|].
    cbn [search step o_nf] in *. unfold normal_form in E. apply sb in E.
    destruct E as ([[t1 wy]|] & s1 & E1 & E).
    - destruct (reduce_keeps_answers _ _ _ _ _ _ C E1) as [C1 K1].
      destruct (IH _ _ _ _ _ _ _ E C1) as (K2 & l & T & A).
      split; [intros k r F; apply K2, K1, F|]. exists (t :: l). split; [eapply TrailStep; eassumption|].
      intros NE V Pr y Y. destruct (trail_head _ _ _ _ _ _ _ T) as (l' & ->).
      destruct Pr as [P1 P2].
      assert (M : memorable t (Some (t1, wy))).
      { split; [apply V; now left|]. intros t' why' [= <- <-]. exact P1. }
      destruct (reduce_known _ _ _ _ _ _ NE C E1 M) as [H|(_ & H & _)]; [|discriminate].
      unfold normal_form, sbind.
      assert (R : o_reduce (ops n) e t y = Ok (Some (t1, wy), y)).
      { destruct n as [|n']; [discriminate|]. cbn [search step o_reduce]. unfold reduce.
        unfold sbind at 1. unfold cached_reduction. cbn [obind]. rewrite Y, (K2 _ _ H). reflexivity. }
      rewrite R. cbn [obind]. apply A; [exact NE| |exact P2|exact Y]. intros v I. apply V. now right.
    - injection E as <- <- <-. destruct (reduce_keeps_answers _ _ _ _ _ _ C E1) as [C1 K1].
      split; [exact K1|]. exists [t]. split; [eapply TrailEnd; eassumption|].
      intros NE V _ y Y. assert (M : memorable t None) by (split; [apply V; now left|discriminate]).
      pose proof (reduce_alike _ _ _ _ _ _ y NE C E1 M Y) as R. unfold normal_form, sbind. rewrite R. reflexivity.
  Qed.
End Repeat.
