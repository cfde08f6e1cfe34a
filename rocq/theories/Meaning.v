(** Committing preserves meaning (C17): what is read through the pending changes of a command
    is what is read after the commit. *)
From Verif Require Import Snapshot Context StoreSpec MapFacts AstFacts StoreFacts StoreInv RangeFacts
  History Sim SimRead Steps Keep Links.
From Coq Require Import List String.
Import ListNotations.
Local Open Scope zia_scope.

(** The id of a concept after the commit. *)
Definition renamed (snap : snapshot) (id : cid) : cid := Committed (rho snap id).

(** Two readings of the same concept, before and after the commit. *)
Record same_reading (snap : snapshot) (m m' : mixed) : Prop := SameReading {
  sr_id : m_id m' = renamed snap (m_id m);
  sr_reduction : m_reduction m' = option_map (renamed snap) (m_reduction m);
  sr_composition : m_composition m' =
    match m_composition m with Some (l, r) => Some (renamed snap l, renamed snap r) | None => None end;
  sr_string : m_string m' = m_string m;
  sr_concrete : m_concrete m' = m_concrete m
}.

Lemma read_committed cfg s n c :
  lookup s n = Some c -> read_concept cfg s delta_default (Committed n) = Ok (mixed_of_committed c).
Proof. intros L. unfold read_concept. cbn. unfold lookup in L. rewrite L. reflexivity. Qed.

Lemma linked_same cfg snap h d s s' k m :
  linked cfg snap h d s -> concepts s' = concepts s -> read_concept cfg snap d k = Ok m ->
  exists m', read_concept cfg s' delta_default (renamed snap k) = Ok m' /\ same_reading snap m m' /\
    (h = true -> forall o hd, dom snap (d_num (overlay d)) o ->
       m_find_as_hand m' (renamed snap o) hd = option_map (renamed snap) (m_find_as_hand m o hd)).
Proof.
  intros LK CS R. destruct (linked_read cfg snap h d s k m LK R) as (D & c & L & S).
  pose proof (sane_numbers _ (lk_sane _ _ _ _ _ LK) _ _ L) as N.
  exists (mixed_of_committed c). split; [|split].
  - apply read_committed. unfold lookup. rewrite CS. exact L.
  - pose proof (sim_spec _ _ _ _ _ S) as E. cbn in E. split.
    + cbn. unfold renamed. f_equal. exact (sim_id _ _ _ _ _ S).
    + rewrite (sim_red _ _ _ _ _ S). cbn. unfold get_reduction, renamed.
      destruct (c_spec c) as [|[] r0|]; cbn in E; destruct (m_spec m) as [|k1 r1|]; try discriminate E;
        try reflexivity; cbn in E; injection E as _ ->; cbn; destruct r1; reflexivity.
    + rewrite (sim_comp _ _ _ _ _ S). cbn. unfold get_composition, renamed.
      destruct (c_spec c) as [|[] ?|]; cbn in E; destruct (m_spec m) as [|[] ?|]; try discriminate E;
        try reflexivity; injection E as -> -> _; reflexivity.
    + destruct m as [o ch comp red|c0]; cbn in E |- *; unfold get_string.
      * destruct (c_spec c) as [|[] ?|], (c_spec o); cbn in E; try discriminate E; congruence.
      * destruct (c_spec c) as [|[] ?|], (c_spec c0) as [|[] ?|]; cbn in E; try discriminate E; congruence.
    + destruct m as [o ch comp red|c0]; cbn in E |- *; unfold get_concrete.
      * destruct (c_spec c) as [|[] ?|], (c_spec o); cbn in E; try discriminate E; congruence.
      * destruct (c_spec c) as [|[] ?|], (c_spec c0) as [|[] ?|]; cbn in E; try discriminate E; congruence.
  - intros -> o hd Do. pose proof (sim_hand _ _ _ _ _ S eq_refl o hd Do) as X. cbn in X. cbn.
    destruct hd; cbn in *; rewrite <- X; destruct (m_find_as_hand m o _); reflexivity.
Qed.

(** No command makes a new built-in concept. *)
Definition concrete_at (s : snapshot) (i : nat) : option cct :=
  match lookup s i with Some c => get_concrete c | None => None end.
Lemma built_in_at s n cc : built_in s n cc <-> concrete_at s n = Some cc.
Proof.
  unfold built_in, concrete_at, get_concrete. split.
  - intros (c & -> & ->). reflexivity.
  - destruct (lookup s n) as [c|]; [|discriminate]. destruct (c_spec c) eqn:E; try discriminate.
    intros [= <-]. eauto.
Qed.
Definition plain_change (d : direct) : Prop :=
  match d with
  | DNew (NLefthand _ _ (Some _)) | DNew (NRighthand _ _ (Some _)) | DNew (NDouble _ (Some _)) => False
  | _ => True
  end.
Lemma step_concrete dbg s id d s' :
  sane s -> good_direct (below (size s)) d -> apply_direct dbg id d s = Ok s' -> plain_change d ->
  forall i, concrete_at s' i = concrete_at s i.
Proof.
  intros S G H PC ix. pose proof (sane_numbers s S) as W.
  apply apply_direct_effect in H; [|exact W]. destruct H as (_ & us & E & _ & O).
  assert (L0 := lookup_self s).
  assert (TL : forall x k, below (size s) x -> to_committed s x = Ok k -> k < List.length (concepts s)).
  { intros x k B T. exact (to_committed_lt s x k S B T). }
  unfold concrete_at.
  destruct E; cbn in G;
    repeat match goal with
    | H : _ /\ _ |- _ => destruct H
    | H : good (_, _) |- _ => destruct H; cbn [fst snd] in *
    end;
    repeat match goal with
    | H : to_committed s ?x = Ok ?k |- _ =>
      lazymatch goal with
      | _ : k < List.length (concepts s) |- _ => fail
      | _ => pose proof (TL x k ltac:(assumption) H)
      end
    end.
  all: unfold size in *; clear TL S; rewrite O; clear O; cbn [aget base_of];
     repeat match goal with H : lookup (grown _) _ = Some _ |- _ =>
       rewrite lookup_grown in H;
       match type of H with context [Nat.eqb ?a ?b] => destruct (Nat.eqb_spec a b); [lia|] end
     end; rewrite ?lookup_grown.
  all: 
     repeat match goal with |- context [Nat.eqb ?a ?b] => destruct (Nat.eqb_spec a b); [subst; try lia|] end;
     rewrite ?L0; 
     repeat match goal with
     | H : lookup ?ss ?i = Some _ |- context [lookup ?ss ?i] => rewrite H
     end; cbn; unfold get_concrete; cbn;
     repeat match goal with H : c_spec _ = _ |- _ => rewrite H end; cbn; auto.
  all: match goal with c : option cct |- _ => destruct c; [destruct PC|reflexivity] end.
Qed.

Lemma legit_plain_change cfg snap fuel d x : legit cfg snap fuel d x -> plain_change x.
Proof.
  intros LG. destruct LG; cbn; auto.
  match goal with H : compose_delta _ _ _ _ = Ok _ |- _ =>
    destruct (compose_delta_shape _ _ _ _ _ H) as (ch & ->) end. exact I.
Qed.

Definition same_built_in (s s' : snapshot) : Prop :=
  concrete_concepts s' = concrete_concepts s /\ forall n cc, built_in s' n cc <-> built_in s n cc.
Lemma step_built_in cfg snap fuel s0 :
  step_keeps cfg snap fuel false (fun _ s => same_built_in s0 s).
Proof.
  intros d1 s1 x id d2 s2 LK A ST LG G _ U AD _ [V1 V2].
  pose proof (lk_sane _ _ _ _ _ LK) as S1. split.
  - rewrite (legit_plain _ _ _ _ _ _ _ _ LG (sane_numbers _ S1) AD). exact V1.
  - intros n cc. rewrite <- V2, !built_in_at.
    rewrite (step_concrete _ _ _ _ _ S1 (good_now _ _ _ _ _ _ LK G) AD
               (legit_plain_change _ _ _ _ _ LG)). tauto.
Qed.

(** ** Looking up built-in concepts through the pending changes *)
Definition tidy (d : delta) : Prop :=
  NoDup (map fst (d_concept (overlay d))) /\
  forall n nd, ~ In (Direct (DNew nd)) (entries (overlay d) (Committed n)).

Lemma insert_delta_nodup ok site id cd l l' :
  insert_delta ok site id cd l = Ok l' ->
  NoDup (map fst (d_concept l)) -> NoDup (map fst (d_concept l')).
Proof.
  unfold insert_delta. intros H N. oinv. subst.
  destruct (aget cid_eqb id (d_concept l)) as [cds|].
  - destruct (unsnoc cds) as [[a b]|]; [|discriminate]. destruct (ok b); [|discriminate].
    injection H as <-. cbn. apply (aset_NoDup _ cid_eqb_spec), N.
  - injection H as <-. cbn. apply (aset_NoDup _ cid_eqb_spec), N.
Qed.
Lemma update_layer_nodup x l id l' :
  update_layer x l = Ok (id, l') ->
  NoDup (map fst (d_concept l)) -> NoDup (map fst (d_concept l')).
Proof.
  intros H N. unfold update_layer, update_new, insert_new, insert_existing in H.
  destruct x as [[]|c [[]|[] []|[]]|c []|c]; cbn in H; pinv; cbn [push_order d_concept];
    try match goal with H : match aget ?a ?b ?c with _ => _ end = Ok _ |- _ =>
      destruct (aget a b c) as [[]|]; try discriminate; injection H; clear H; intros; subst end;
    cbn [set_string d_concept];
    repeat match goal with
    | H : insert_delta _ _ _ _ _ = Ok ?l |- NoDup (map fst (d_concept ?l)) =>
      apply (insert_delta_nodup _ _ _ _ _ _ H); clear H
    end; exact N.
Qed.

Lemma step_tidy cfg snap fuel h : step_keeps cfg snap fuel h (fun d _ => tidy d).
Proof.
  intros d1 s1 x id d2 s2 LK A ST LG G _ U AD _ [T1 T2].
  destruct d1 as [l i]. cbn in U. oinv. subst.
  match goal with H : update_layer _ _ = _ |- _ => rename H into E end. split.
  - exact (update_layer_nodup _ _ _ _ E T1).
  - intros n nd I. cbn in I. apply update_layer_spec in E. destruct E as (E1 & _ & _ & _ & _ & E).
    rewrite E, in_app_iff in I. destruct I as [I|I]; [exact (T2 n nd I)|].
    unfold touching in I. apply in_map_iff in I. destruct I as ([k cd] & EQ & I). cbn in EQ. subst cd.
    apply filter_In in I. destruct I as [I K]. cbn [fst] in K.
    destruct (cid_eqb_spec (Committed n) k) as [<-|]; [|discriminate K].
    destruct x as [nd'|c ch|c ch|c]; cbn in E1; subst id; cbn in I.
    + destruct I as [I|I]; [discriminate I|]. destruct nd'; cbn in I; intuition congruence.
    + destruct I as [I|I]; [discriminate I|].
      destruct ch as [[]|[] []|[]]; cbn in I; intuition congruence.
    + destruct I as [I|I]; [discriminate I|]. destruct ch as [|? ?|]; cbn in I; intuition congruence.
    + intuition congruence.
Qed.

Lemma linked_maybe cfg snap h d s k m :
  linked cfg snap h d s -> maybe_read_concept cfg snap d k = Ok (Some m) ->
  read_concept cfg snap d k = Ok m.
Proof. intros LK E. unfold read_concept. rewrite E. reflexivity. Qed.

Lemma built_in_lt s n cc : built_in s n cc -> n < size s.
Proof. intros (c & L & _). apply lookup_lt in L. exact L. Qed.

Lemma linked_concrete_id cfg snap h d s cc v :
  fair cfg -> linked cfg snap h d s -> tidy d -> same_built_in snap s ->
  concrete_concept_id cfg snap d cc = Ok v ->
  v = option_map Committed (bimap_by_right cc (concrete_concepts snap)).
Proof.
  intros F LK [T1 T2] [_ SB] E. unfold concrete_concept_id in E.
  apply obind_ok in E. destruct E as (r & E1 & E2).
  assert (X : r = None); [|rewrite X in E2; congruence].
  assert (IN : forall k cds, In (k, cds) (delta_iter_concepts cfg d) ->
               cds = entries (overlay d) k).
  { intros k cds I. unfold delta_iter_concepts in I. rewrite (lk_layers _ _ _ _ _ LK) in I. cbn in I.
    apply in_map_iff in I. destruct I as ([k' o] & EQ & I). cbn in EQ. injection EQ as -> ->.
    apply (Permutation.Permutation_in _ (F _ _ _)) in I. unfold entries.
    rewrite (In_aget _ cid_eqb_spec _ _ _ T1 I). reflexivity. }
  revert IN E1. generalize (delta_iter_concepts cfg d).
  assert (SC : forall n cds, (forall nd, ~ In (Direct (DNew nd)) cds) ->
     (forall i, ~ In (Direct (DRemove i)) cds) ->
     forall acc, concrete_scan_deltas cfg (Committed n) acc cds = Ok acc).
  { intros n. induction cds as [|cd cds IH]; intros H1 H2 acc; [reflexivity|].
    assert (K : concrete_scan_deltas cfg (Committed n) acc cds = Ok acc).
    { apply IH; intros y I; [apply (H1 y)|apply (H2 y)]; right; exact I. }
    destruct cd as [[nd| | |i]|]; cbn; try exact K.
    - destruct (H1 nd). left. reflexivity.
    - destruct (H2 i). left. reflexivity. }
  induction l as [|[k cds] l IH]; intros IN E1.
  { cbn in E1. congruence. }
  cbn in E1. apply obind_ok in E1. destruct E1 as (ty & E1 & E3).
  apply obind_ok in E3. destruct E3 as (acc & E3 & E4).
  assert (acc = None).
  { unfold maybe_concrete_concept_type in E1. apply obind_ok in E1. destruct E1 as (m & E1 & E5).
    injection E5 as <-. destruct (opt_cct_eqb _ _) eqn:Q in E3; [|congruence].
    destruct m as [m|]; [|discriminate Q].
    pose proof (linked_maybe _ _ _ _ _ _ _ LK E1) as R.
    destruct k as [n|u].
    - rewrite SC in E3; [congruence| |]; rewrite (IN _ _ (or_introl eq_refl)).
      + intros nd. apply T2.
      + intros i. apply (lk_noremove _ _ _ _ _ LK).
    - exfalso. destruct (linked_same _ _ _ _ _ s _ _ LK eq_refl R) as (m' & R' & SR & _).
      destruct (linked_read _ _ _ _ _ _ _ LK R) as (_ & c & L & _).
      unfold renamed in R'. rewrite (read_committed _ _ _ _ L) in R'. injection R' as <-.
      pose proof (sr_concrete _ _ _ SR) as C. cbn in C. destruct (m_concrete m) as [cc'|]; [|discriminate Q].
      assert (B : built_in s (rho snap (Uncommitted u)) cc').
      { apply built_in_at. unfold concrete_at. rewrite L. exact C. }
      apply SB, built_in_lt in B. cbn in B. lia. }
  subst acc. apply IH; [|exact E4]. intros k' cds' I. apply IN. right. exact I.
Qed.

(** ** Strings *)
Definition strings_linked (snap : snapshot) (d : delta) (s : snapshot) : Prop :=
  forall t, match aget text_eqb t (d_string (overlay d)) with
            | None => aget text_eqb t (string_map s) = aget text_eqb t (string_map snap)
            | Some (Create id) => aget text_eqb t (string_map s) = Some (rho snap id)
            | Some _ => False
            end.

Lemma step_strings cfg snap fuel h : step_keeps cfg snap fuel h (fun d s => strings_linked snap d s).
Proof.
  intros d1 s1 x id d2 s2 LK A ST LG G _ U AD _ T t. specialize (T t).
  apply apply_direct_effect in AD; [|apply (lk_sane _ _ _ _ _ LK)]. destruct AD as ((F & _) & _).
  pose proof (lk_size _ _ _ _ _ LK) as Z.
  destruct d1 as [l i]. cbn in U. oinv. subst.
  match goal with H : update_layer _ _ = _ |- _ => apply update_layer_spec in H;
    destruct H as (E1 & _ & E2 & _ & E3 & _) end. cbn in *.
  rewrite E2, F. unfold new_string.
  destruct x as [[t0| | | | | | |]|c ch|c ch|c]; try exact T.
  rewrite !(aget_aset _ text_eqb_spec). destruct (text_eqb_spec t t0) as [->|N]; [|exact T].
  specialize (E3 t0 eq_refl). destruct (aget text_eqb t0 (d_string l)) as [c|].
  - destruct (E3 c eq_refl) as (b & ->). destruct T.
  - cbn. unfold size in *. congruence.
Qed.

(** Committing the recorded strings again changes nothing. *)
Lemma apply_strings_same cfg snap h d s ss s' :
  linked cfg snap h d s -> strings_linked snap d s ->
  (forall t ch, In (t, ch) ss -> aget text_eqb t (d_string (overlay d)) = Some ch /\
                                 good_change cid (below (size snap)) ch) ->
  apply_strings (dbg cfg) ss s = Ok s' ->
  forall t, aget text_eqb t (string_map s') = aget text_eqb t (string_map s).
Proof.
  intros LK SL IN E. assert (PV := lk_prev _ _ _ _ _ LK).
  assert (SL' : forall t id, aget text_eqb t (d_string (overlay d)) = Some (Create id) ->
                aget text_eqb t (string_map s) = Some (rho snap id)).
  { intros t id H. specialize (SL t). rewrite H in SL. exact SL. }
  assert (ON : forall t ch, In (t, ch) ss -> exists id, ch = Create id).
  { intros t ch I. destruct (IN t ch I) as [H _]. specialize (SL t). rewrite H in SL.
    destruct ch; [eauto|destruct SL..]. }
  clear SL LK. revert s E PV SL'.
  induction ss as [|[t ch] ss IH]; intros s E PV SL' t'.
  - injection E as <-. reflexivity.
  - cbn in E. apply obind_ok in E. destruct E as (s1 & E1 & E2).
    destruct (ON t ch (or_introl eq_refl)) as (id & ->). cbn in E1.
    apply obind_ok in E1. destruct E1 as (n & T & E1). injection E1 as <-.
    destruct (IN _ _ (or_introl eq_refl)) as [H GC]. cbn in GC.
    destruct (com_rho snap s _ PV id n GC T) as [-> _].
    assert (Q : forall k, aget text_eqb k (aset text_eqb t (rho snap id) (string_map s)) =
                          aget text_eqb k (string_map s)).
    { intros k. rewrite (aget_aset _ text_eqb_spec). destruct (text_eqb_spec k t) as [->|]; [|reflexivity].
      symmetry. apply SL', H. }
    rewrite (IH (fun t ch I => IN t ch (or_intror I)) (fun t ch I => ON t ch (or_intror I))
               (map_string t (rho snap id) s) E2 PV).
    + cbn. apply Q.
    + intros k i K. cbn. rewrite Q. apply SL', K.
Qed.

(** ** Everything read before and after the commit *)
Record committed_as (cfg : config) (h : bool) (snap : snapshot) (d : delta) (s' : snapshot) : Prop :=
  CommittedAs {
    ca_read : forall k m, read_concept cfg snap d k = Ok m ->
      dom snap (d_num (overlay d)) k /\
      exists m', read_concept cfg s' delta_default (renamed snap k) = Ok m' /\ same_reading snap m m' /\
        (h = true -> forall o hd, dom snap (d_num (overlay d)) o ->
           m_find_as_hand m' (renamed snap o) hd = option_map (renamed snap) (m_find_as_hand m o hd));
    ca_concrete : forall cc v, concrete_concept_id cfg snap d cc = Ok v ->
      concrete_concept_id cfg s' delta_default cc = Ok (option_map (renamed snap) v) /\
      forall k, v = Some k -> dom snap (d_num (overlay d)) k;
    ca_string : forall t v, get_string_concept cfg snap d t = Ok v ->
      get_string_concept cfg s' delta_default t = Ok (option_map (renamed snap) v)
  }.

Lemma by_right_in cc m n : bimap_by_right cc m = Some n -> In (n, cc) m.
Proof.
  unfold bimap_by_right. destruct (find _ m) as [[k cc']|] eqn:E; [|discriminate].
  intros [= <-]. apply find_some in E. destruct E as [I E].
  destruct cc, cc'; try discriminate E; exact I.
Qed.

Lemma committed_as_intro cfg h snap d s s' :
  fair cfg -> sane snap -> linked cfg snap h d s -> tidy d -> same_built_in snap s ->
  concepts s' = concepts s -> concrete_concepts s' = concrete_concepts s ->
  strings_linked snap d s ->
  (forall t, aget text_eqb t (string_map s') = aget text_eqb t (string_map s)) ->
  committed_as cfg h snap d s'.
Proof.
  intros F S LK T SB C1 C2 SL C3. split.
  - intros k m R. split; [apply (linked_read _ _ _ _ _ _ _ LK R)|].
    exact (linked_same _ _ _ _ _ s' _ _ LK C1 R).
  - intros cc v E. pose proof (linked_concrete_id _ _ _ _ _ _ _ F LK T SB E) as ->.
    assert (LT : forall n, bimap_by_right cc (concrete_concepts snap) = Some n -> n < size snap).
    { intros n B. apply by_right_in in B. apply (proj2 (proj2 (sane_ids snap S))) in B. exact B. }
    split.
    + unfold concrete_concept_id, delta_iter_concepts. cbn.
      rewrite (Permutation.Permutation_nil (Permutation.Permutation_sym (F (ODelta 0) (cid * list cdelta)%type []))).
      cbn. rewrite C2, (proj1 SB). destruct (bimap_by_right cc (concrete_concepts snap)); reflexivity.
    + intros k. destruct (bimap_by_right cc (concrete_concepts snap)) as [n|] eqn:B; [|discriminate].
      intros [= <-]. cbn. apply LT. reflexivity.
  - intros t v E. unfold get_string_concept in *. apply obind_ok in E. destruct E as (x & E1 & E2).
    unfold delta_string in E1. rewrite (lk_layers _ _ _ _ _ LK) in E1. cbn in E1.
    specialize (SL t). cbn. rewrite C3.
    destruct (aget text_eqb t (d_string (overlay d))) as [[id|b a|b]|]; try solve [destruct SL];
      injection E1 as <-; injection E2 as <-.
    + rewrite SL. reflexivity.
    + rewrite SL. destruct (aget text_eqb t (string_map snap)) as [n|]; reflexivity.
Qed.

Section Names.
  Variable cfg : config.
  Variable snap : snapshot.
  Variable d : delta.
  Variable s' : snapshot.
  Local Notation num := (d_num (overlay d)).
  Local Notation ren := (renamed snap).

  Lemma normal_form_same h fuel : committed_as cfg h snap d s' -> forall c v,
    get_normal_form cfg snap d fuel c = Ok v ->
    get_normal_form cfg s' delta_default fuel (ren c) = Ok (option_map ren v).
  Proof.
    intros CA. induction fuel as [|fuel IH]; intros c v E; [discriminate|]. cbn [get_normal_form] in *.
    apply obind_ok in E. destruct E as (m & R & E).
    destruct (ca_read _ _ _ _ _ CA c m R) as (_ & m' & R' & SR & _). rewrite R'. cbn [obind].
    rewrite (sr_reduction _ _ _ SR). destruct (m_reduction m) as [n|]; cbn [option_map].
    - apply obind_ok in E. destruct E as (w & E1 & E2). injection E2 as <-.
      rewrite (IH _ _ E1). destruct w; reflexivity.
    - injection E as <-. reflexivity.
  Qed.

  Lemma concept_of_label_same : committed_as cfg true snap d s' -> forall c v,
    get_concept_of_label cfg snap d c = Ok v ->
    get_concept_of_label cfg s' delta_default (ren c) = Ok (option_map ren v).
  Proof.
    intros CA c v E. unfold get_concept_of_label in *. apply obind_ok in E. destruct E as (l & E1 & E2).
    destruct (ca_concrete _ _ _ _ _ CA _ _ E1) as (E1' & D). rewrite E1'. cbn [obind].
    destruct l as [l|]; cbn [option_map]; [|injection E2 as <-; reflexivity].
    apply obind_ok in E2. destruct E2 as (m & R & E2). injection E2 as <-.
    destruct (ca_read _ _ _ _ _ CA c m R) as (_ & m' & R' & _ & H). rewrite R'. cbn [obind].
    rewrite (H eq_refl l HRight (D l eq_refl)). reflexivity.
  Qed.

  Lemma label_same fuel : committed_as cfg true snap d s' -> forall c v,
    get_label cfg snap d fuel c = Ok v -> get_label cfg s' delta_default fuel (ren c) = Ok v.
  Proof.
    intros CA. induction fuel as [|fuel IH]; intros c v E; [discriminate|]. cbn [get_label] in *.
    apply obind_ok in E. destruct E as (l & E1 & E2).
    rewrite (concept_of_label_same CA _ _ E1). cbn [obind].
    destruct l as [l|]; cbn [option_map].
    - apply obind_ok in E2. destruct E2 as (n & E2 & E3).
      rewrite (normal_form_same true fuel CA _ _ E2). cbn [obind]. destruct n as [n|]; cbn [option_map]; [|exact E3].
      unfold omap in *. apply obind_ok in E3. destruct E3 as (m & R & E3).
      destruct (ca_read _ _ _ _ _ CA n m R) as (_ & m' & R' & SR & _). rewrite R'. cbn [obind].
      rewrite (sr_string _ _ _ SR). exact E3.
    - apply obind_ok in E2. destruct E2 as (m & R & E2).
      destruct (ca_read _ _ _ _ _ CA c m R) as (_ & m' & R' & SR & _). rewrite R'. cbn [obind].
      rewrite (sr_reduction _ _ _ SR). destruct (m_reduction m); cbn [option_map]; [apply IH|]; exact E2.
  Qed.
End Names.

Lemma execute_committed_as cfg fuel t c z c1 r c' h :
  fair cfg -> ready c -> run_command cfg fuel t c = Ok (z, c1) ->
  execute cfg fuel t c = Ok (r, c') ->
  (h = true -> forall id x, In (id, x) (d_order (overlay (c_delta c1))) -> keeps_hands x) ->
  committed_as cfg h (c_snap c) (c_delta c1) (c_snap c').
Proof.
  intros F RD E1 E OK.
  destruct (execute_run cfg fuel t c r c' F RD E) as (z' & c1' & E1' & _ & _ & ST & G & L & A & _).
  rewrite E1 in E1'. injection E1' as <- <-. pose proof (ready_sane c RD) as S. pose proof (ready_prev c RD) as P.
  pose proof A as A'. unfold apply in A'. oinv. subst. rewrite (single_order _ L) in *.
  match goal with H : apply_directs _ _ _ = Ok ?x |- _ => rename H into A1; rename x into s1 end.
  match goal with H : apply_strings _ _ _ = Ok ?x |- _ => rename H into A2; rename x into s2 end.
  match goal with H : delta_iter_string _ _ = Ok ?x |- _ => rename H into A3; rename x into ss end.
  destruct (steps_keep cfg (c_snap c) fuel h (fun d s => tidy d /\ strings_linked (c_snap c) d s)
              (c_delta c1) s1 S P ST A1 OK) as (LK & T & SL).
  { intros d1 sa x id d2 sb H1 H2 H3 H4 H5 H6 H7 H8 H9 [T1 T2]. split.
    - exact (step_tidy cfg (c_snap c) fuel h d1 sa x id d2 sb H1 H2 H3 H4 H5 H6 H7 H8 H9 T1).
    - exact (step_strings cfg (c_snap c) fuel h d1 sa x id d2 sb H1 H2 H3 H4 H5 H6 H7 H8 H9 T2). }
  { split; [split; [constructor|intros n nd []]|]. intros u. reflexivity. }
  destruct (steps_keep cfg (c_snap c) fuel false (fun _ s => same_built_in (c_snap c) s)
              (c_delta c1) s1 S P ST A1 ltac:(discriminate) (step_built_in cfg (c_snap c) fuel (c_snap c)))
    as (_ & SB). { split; [reflexivity|tauto]. }
  destruct (apply_split _ _ _ _ S L G A) as (s1' & A1' & C1 & C2 & _).
  rewrite A1 in A1'. injection A1' as <-.
  apply (committed_as_intro cfg h (c_snap c) (c_delta c1) s1); auto.
  intros u. 
  match goal with H : Ok _ = Ok _ |- _ => injection H as <- | H : _ = c_snap c' |- _ => rewrite <- H end. cbn.
  apply (apply_strings_same cfg (c_snap c) h (c_delta c1) s1 ss s2 LK SL); [|exact A2].
  intros v ch I. pose proof (iter_string_in _ _ _ _ _ L A3 I) as J. split; [exact J|].
  apply (aget_in _ text_eqb_spec) in J.
  assert (G' : good_layer (below (size (c_snap c))) (overlay (c_delta c1))).
  { apply G. rewrite L. left. reflexivity. }
  exact (proj2 (proj1 G' _ J)).
Qed.
