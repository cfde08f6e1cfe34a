(** Looking up names through the pending changes of a command (C17, inverse labels). *)
From Verif Require Import Snapshot Context StoreSpec NameSpec MapFacts AstFacts StoreFacts StoreInv RangeFacts
  History Sim SimRead Steps Keep Links Meaning Names Frames StoreLaws.
From Coq Require Import List String Relations Permutation PeanoNat Lia.
Import ListNotations.
Local Open Scope zia_scope.

(** The changes recorded in a reading mention every concept once. *)
Definition tidy_from (m : mixed) : Prop :=
  match m with MPrev _ ch _ _ => NoDup (map fst (ch_from ch)) | MUnc _ => True end.
Section Tidy.
  Variables (cfg : config) (snap : snapshot) (d : delta).
  Lemma tidy_reduction m ch m' : m_change_reduction cfg m ch = Ok m' -> tidy_from m -> tidy_from m'.
  Proof.
    unfold m_change_reduction. intros E T. destruct m as [o chs comp red|c]; cbn in *; oinv; subst; auto; try exact I.
  Qed.
  Lemma tidy_indirect m i m' : m_apply_indirect cfg m i = Ok m' -> tidy_from m -> tidy_from m'.
  Proof.
    unfold m_apply_indirect. intros E T. destruct m as [o chs comp red|c]; cbn in *.
    - destruct i; oinv; subst; cbn; auto; apply (aset_NoDup _ cid_eqb_spec), T.
    - destruct i; oinv; subst; exact I.
  Qed.
  Lemma tidy_steps id cds : forall m m', read_steps cfg id m cds = Ok m' ->
    (forall x, m = Some x -> tidy_from x) -> forall x, m' = Some x -> tidy_from x.
  Proof.
    induction cds as [|cd cds IH]; intros m m' E T; [injection E as <-; exact T|].
    cbn in E. apply obind_ok in E. destruct E as (m1 & E1 & E2). apply (IH _ _ E2). clear IH E2.
    intros x ->. unfold read_step in E1. destruct cd as [[nd|i ch|i ch|i]|i]; oinv; subst; try discriminate.
    all: unfold omap in *; oinv; subst; try exact I;
      repeat match goal with H : Some _ = Some _ |- _ => injection H; clear H; intros; subst end;
      first [eapply tidy_reduction; eauto; fail|eapply tidy_indirect; eauto; fail].
  Qed.
  Lemma tidy_read id m : read_concept cfg snap d id = Ok m -> tidy_from m.
  Proof.
    assert (G : forall x, get_concept snap id = Some x -> tidy_from x).
    { intros x. unfold get_concept. destruct id as [n|]; [|discriminate]. destruct (nth_error _ _); [|discriminate].
      intros [= <-]. constructor. }
    unfold read_concept, maybe_read_concept. intros E. destruct (delta_concept d id) as [cds|].
    - apply obind_ok in E. destruct E as ([x|] & E1 & E2).
      + injection E2 as <-. exact (tidy_steps _ _ _ _ E1 G _ eq_refl).
      + apply unwrap_ok in E2. auto.
    - cbn in E. apply unwrap_ok in E. auto.
  Qed.
End Tidy.

Lemma from_mem_listed cfg m k : fair cfg -> tidy_from m ->
  (In k (m_reduces_from cfg m) <-> from_mem m k = true).
Proof.
  intros F T. destruct m as [o ch comp red|c]; cbn [m_reduces_from from_mem tidy_from] in *.
  - rewrite in_app_iff, filter_In. split.
    + intros [[I K]|I].
      * apply in_map_iff in I. destruct I as (n & <- & I).
        destruct (aget cid_eqb (Committed n) (ch_from ch)) as [[]|]; [reflexivity|discriminate|].
        apply (smem_in _ Nat.eqb_spec). eapply Permutation_in; [apply F|exact I].
      * apply in_map_iff in I. destruct I as ([u b] & <- & I). apply filter_In in I. destruct I as [I B]. cbn in *. subst b.
        eapply Permutation_in in I; [|apply F]. rewrite (In_aget _ cid_eqb_spec _ _ _ T I). reflexivity.
    + destruct (aget cid_eqb k (ch_from ch)) as [b|] eqn:A.
      * intros ->. right. apply in_map_iff. exists (k, true). split; [reflexivity|]. apply filter_In. split; [|reflexivity].
        apply (aget_in _ cid_eqb_spec) in A. eapply Permutation_in; [symmetry; apply F|exact A].
      * destruct k as [n|]; [|discriminate]. intros S. left. split; [|reflexivity]. apply in_map.
        apply (smem_in _ Nat.eqb_spec) in S. eapply Permutation_in; [symmetry; apply F|exact S].
  - rewrite (smem_in _ cid_eqb_spec). split; intros I; (eapply Permutation_in; [|exact I]).
    + apply F.
    + symmetry. apply F.
Qed.

Section Lookup.
  Variables (cfg : config) (snap : snapshot) (h : bool) (d : delta) (s s' : snapshot).
  Hypothesis F : fair cfg.
  Hypothesis LK : linked cfg snap h d s.
  Hypothesis CS : concepts s' = concepts s.
  Local Notation rho := (rho snap).
  Local Notation dom := (dom snap (d_num (overlay d))).

  Lemma read_pending k m :
    read_concept cfg snap d k = Ok m -> dom k /\
    exists c, lookup s' (rho k) = Some c /\
      (forall u, In u (m_reduces_from cfg m) <-> dom u /\ In (rho u) (reduces_from c)).
  Proof.
    intros R. destruct (linked_read _ _ _ _ _ _ _ LK R) as (D & c & L & S). split; [exact D|].
    exists c. split; [unfold lookup in *; rewrite CS; exact L|].
    intros u. rewrite (from_mem_listed cfg m u F (tidy_read _ _ _ _ _ R)).
    assert (X : reduces_from (stripc h c) = reduces_from c) by (destruct h; reflexivity).
    split.
    - intros M. pose proof (sim_from_dom _ _ _ _ _ S _ M) as Du. split; [exact Du|].
      rewrite (sim_from _ _ _ _ _ S u Du), X in M. apply (smem_in _ Nat.eqb_spec), M.
    - intros [Du I]. rewrite (sim_from _ _ _ _ _ S u Du), X. apply (smem_in _ Nat.eqb_spec), I.
  Qed.
  Lemma onto n : n < size s -> exists u, dom u /\ rho u = n.
  Proof.
    intros L. pose proof (lk_size _ _ _ _ _ LK) as Z. destruct (Nat.lt_ge_cases n (size snap)).
    - exists (Committed n). split; [exact H|reflexivity].
    - exists (Uncommitted (n - size snap)). cbn. lia.
  Qed.
  Lemma next_pending k m n :
    read_concept cfg snap d k = Ok m -> lists_reduction_from s' (rho k) n ->
    exists u, In u (m_reduces_from cfg m) /\ rho u = n.
  Proof.
    intros R (c & L & I). destruct (read_pending k m R) as (_ & c' & L' & H).
    assert (c' = c) by congruence. subst c'.
    destruct (onto n) as (u & Du & <-).
    { unfold lookup in L. rewrite CS in L. pose proof (proj1 (sane_ids _ (lk_sane _ _ _ _ _ LK)) _ _ L) as (_ & _ & _ & O & _).
      exact (O _ I). }
    exists u. split; [|reflexivity]. apply H. auto.
  Qed.
  Lemma composition_pending k m :
    read_concept cfg snap d k = Ok m -> forall a b, composed s' (rho k) a b <->
      exists l r, m_composition m = Some (l, r) /\ a = rho l /\ b = rho r.
  Proof.
    intros R a b. destruct (linked_comp _ _ _ _ _ _ _ LK R) as (_ & C). rewrite composed_at.
    unfold comp_at in *. rewrite (same_concepts_at _ _ CS), C.
    destruct (m_composition m) as [[l r]|]; split.
    - intros [= <- <-]. eauto.
    - intros (l' & r' & [= <- <-] & -> & ->). reflexivity.
    - discriminate.
    - intros (l' & r' & E & _). discriminate.
  Qed.
  Lemma type_pending k ty :
    concrete_concept_type cfg snap d k = Ok ty -> forall cc, built_in s' (rho k) cc <-> ty = Some cc.
  Proof.
    unfold concrete_concept_type, omap. intros E. apply obind_ok in E. destruct E as (m & R & E). injection E as <-.
    destruct (linked_same _ _ _ _ _ s' _ _ LK CS R) as (m' & R' & SR & _).
    destruct (linked_read _ _ _ _ _ _ _ LK R) as (_ & c & L & _).
    assert (L' : lookup s' (rho k) = Some c) by (unfold lookup in *; rewrite CS; exact L).
    unfold renamed in R'. rewrite (read_committed _ _ _ _ L') in R'. injection R' as <-.
    pose proof (sr_concrete _ _ _ SR) as C. cbn in C. intros cc. rewrite built_in_at. unfold concrete_at.
    rewrite L', C. tauto.
  Qed.

  Definition names (n x : nat) : Prop := exists lab, composed s' n lab x /\ built_in s' lab CLabel.

  Lemma loop_sound fuel : forall ks x,
    labellee_loop cfg snap d fuel ks = Ok (Some x) ->
    exists k n, In k ks /\ clos_refl_trans nat (lists_reduction_from s') (rho k) n /\ names n (rho x).
  Proof.
    induction fuel as [|fuel IH]; intros ks x E; [destruct ks; discriminate|].
    destruct ks as [|k ks]; [discriminate|]. cbn [labellee_loop] in E.
    apply obind_ok in E. destruct E as (m & R & E). apply obind_ok in E. destruct E as (found & E1 & E2).
    destruct found as [y|].
    - injection E2 as ->. destruct (m_composition m) as [[l r]|] eqn:C; [|discriminate].
      apply obind_ok in E1. destruct E1 as (ty & T & E1). destruct (opt_cct_eqb ty (Some CLabel)) eqn:Ty; [|discriminate].
      injection E1 as ->. exists k, (rho k). split; [left; reflexivity|]. split; [apply rt_refl|].
      exists (rho l). split; [apply (composition_pending k m R); eauto|].
      apply (type_pending l ty T). destruct ty as [[]|]; try discriminate. reflexivity.
    - apply IH in E2. destruct E2 as (u & n & I & P & N). apply in_app_iff in I. destruct I as [I|I].
      + exists u, n. split; [right; exact I|]. auto.
      + exists k, n. split; [left; reflexivity|]. split; [|exact N].
        destruct (read_pending k m R) as (_ & c & L & H). apply H in I. destruct I as [_ I].
        eapply rt_trans; [apply rt_step; exists c; eauto|exact P].
  Qed.
  Lemma loop_complete fuel : forall ks,
    labellee_loop cfg snap d fuel ks = Ok None ->
    forall k n x, In k ks -> clos_refl_trans nat (lists_reduction_from s') (rho k) n -> ~ names n x.
  Proof.
    induction fuel as [|fuel IH]; intros ks E; [destruct ks; [intros ? ? ? []|discriminate]|].
    destruct ks as [|k ks]; [intros ? ? ? []|]. cbn [labellee_loop] in E.
    apply obind_ok in E. destruct E as (m & R & E). apply obind_ok in E. destruct E as (found & E1 & E2).
    destruct found as [y|]; [discriminate|]. specialize (IH _ E2).
    intros u n x [<-|I] P.
    - apply clos_rt_rt1n in P. destruct P as [|n1 n I P].
      + intros (lab & C & B). apply (composition_pending k m R) in C. destruct C as (l & r & C & -> & ->).
        rewrite C in E1. apply obind_ok in E1. destruct E1 as (ty & T & E1).
        apply (type_pending l ty T) in B. subst ty. discriminate.
      + destruct (next_pending k m n1 R I) as (u & Iu & <-).
        apply (IH u n x); [apply in_app_iff; auto|apply clos_rt1n_rt, P].
    - apply (IH u n x); [apply in_app_iff; auto|exact P].
  Qed.

  Hypothesis STR : forall t v, get_string_concept cfg snap d t = Ok v ->
    aget text_eqb t (string_map s') = option_map rho v.
  Lemma pending_label_found fuel t x :
    concept_from_label cfg snap d fuel t = Ok (Some x) -> found_under s' t (rho x).
  Proof.
    unfold concept_from_label. intros E. apply obind_ok in E. destruct E as (v & E1 & E).
    apply STR in E1. destruct v as [k|]; [|discriminate]. cbn in E1.
    unfold get_labellee in E. apply obind_ok in E. destruct E as (m & R & E).
    apply loop_sound in E. destruct E as (u & n & I & P & lab & C & B).
    exists (rho k), n, lab. split; [exact E1|]. split; [|auto]. apply t_split. exists (rho u). split; [|exact P].
    destruct (read_pending k m R) as (_ & c & L & H). apply H in I. exists c. tauto.
  Qed.
  Lemma pending_label_none fuel t :
    concept_from_label cfg snap d fuel t = Ok None -> forall x, ~ found_under s' t x.
  Proof.
    unfold concept_from_label. intros E x (str & comp & lab & A & P & C & B).
    apply obind_ok in E. destruct E as (v & E1 & E). apply STR in E1. rewrite A in E1.
    destruct v as [k|]; [|discriminate]. injection E1 as ->.
    unfold get_labellee in E. apply obind_ok in E. destruct E as (m & R & E).
    apply t_split in P. destruct P as (n & I & P). destruct (next_pending k m n R I) as (u & Iu & <-).
    apply (loop_complete fuel _ E u comp x Iu P). exists lab. auto.
  Qed.
End Lookup.

(** The inverse label lookup before and after the commit. *)
Lemma names_survive (b : bool) cfg fuel t r c c1 c' z :
  reachable b c -> fair cfg ->
  run_command cfg fuel t c = Ok (z, c1) -> execute cfg fuel t c = Ok (r, c') ->
  forall n w v, concept_from_label cfg (c_snap c) (c_delta c1) n w = Ok v ->
    match v with
    | Some x => found_under (c_snap c') w (rho (c_snap c) x)
    | None => forall x, ~ found_under (c_snap c') w x
    end.
Proof.
  intros R F E1 E n w v H. pose proof (reachable_ready _ _ R) as RD.
  pose proof (execute_committed_as cfg fuel t c z c1 r c' false F RD E1 E ltac:(discriminate)) as CA.
  destruct (execute_frame cfg fuel t c r c' F RD E) as (z' & c1' & E1' & _ & _ & s1 & LK & _ & CS & _).
  rewrite E1 in E1'. injection E1' as <- <-.
  assert (STR : forall t v, get_string_concept cfg (c_snap c) (c_delta c1) t = Ok v ->
    aget text_eqb t (string_map (c_snap c')) = option_map (rho (c_snap c)) v).
  { intros u y G. apply (ca_string _ _ _ _ _ CA) in G. rewrite string_lookup in G. injection G as G.
    destruct (aget text_eqb u (string_map (c_snap c'))), y; cbn in *; unfold renamed in G; congruence. }
  destruct v as [x|].
  - eapply pending_label_found; eauto.
  - eapply pending_label_none; eauto.
Qed.

(** ** Labels through the pending changes.  [get_label] first looks for the concept [label_of],
    which reads every pending concept; a pending change of composition cannot be read.  So a label
    that can be read at all is read while no composition is being changed. *)
Definition listed (d : delta) : Prop :=
  forall id k ch, In (id, DCompose k ch) (d_order (overlay d)) ->
    In (Direct (DCompose k ch)) (entries (overlay d) k).
Lemma step_listed cfg snap fuel h : step_keeps cfg snap fuel h (fun d _ => listed d).
Proof.
  intros d1 s1 x id d2 s2 LK A ST LG G _ U AD _ L j k ch I.
  destruct d1 as [l i]. cbn in U. oinv. subst. cbn in *.
  match goal with H : update_layer _ _ = _ |- _ => apply update_layer_spec in H;
    destruct H as (E1 & _ & _ & EO & _ & E) end.
  rewrite EO, in_app_iff in I. rewrite E, in_app_iff. destruct I as [I|[I|[]]].
  - left. exact (L _ _ _ I).
  - right. injection I as -> ->. cbn in E1. subst j. unfold touching. apply in_map_iff.
    exists (k, Direct (DCompose k ch)). split; [reflexivity|]. apply filter_In. split.
    + destruct ch as [[]|[] []|[]]; left; reflexivity.
    + cbn. destruct (cid_eqb_spec k k); [reflexivity|contradiction].
Qed.
Lemma composing_unread cfg id cds : forall m m', read_steps cfg id m cds = Ok m' ->
  forall k ch, ~ In (Direct (DCompose k ch)) cds.
Proof.
  induction cds as [|cd cds IH]; intros m m' E k ch I; [exact I|].
  cbn in E. apply obind_ok in E. destruct E as (m1 & E1 & E2). destruct I as [->|I].
  - cbn in E1. oinv.
  - exact (IH _ _ E2 k ch I).
Qed.
Lemma scan_reads cfg snap d cc : forall es acc r, concrete_scan cfg snap d cc acc es = Ok r ->
  forall k cds, In (k, cds) es -> exists m, maybe_read_concept cfg snap d k = Ok m.
Proof.
  induction es as [|[k' cds'] es IH]; intros acc r E k cds I; [destruct I|].
  cbn in E. apply obind_ok in E. destruct E as (ty & E1 & E). apply obind_ok in E. destruct E as (acc' & _ & E).
  destruct I as [[= -> ->]|I]; [|exact (IH _ _ E _ _ I)].
  unfold maybe_concrete_concept_type, omap in E1. apply obind_ok in E1. destruct E1 as (m & E1 & _). eauto.
Qed.
Lemma label_reads_keep_hands cfg snap d fuel id v :
  fair cfg -> layers d = [overlay d] -> listed d -> get_label cfg snap d fuel id = Ok v ->
  forall j x, In (j, x) (d_order (overlay d)) -> keeps_hands x.
Proof.
  intros F L LI E j x I. destruct x as [|k ch| |]; try exact Logic.I.
  exfalso. apply LI in I. destruct fuel as [|fuel]; [discriminate|]. cbn in E.
  apply obind_ok in E. destruct E as (lb & E & _). unfold get_concept_of_label in E.
  apply obind_ok in E. destruct E as (q & E & _). unfold concrete_concept_id in E.
  apply obind_ok in E. destruct E as (w & E & _).
  unfold entries in I. destruct (aget cid_eqb k (d_concept (overlay d))) as [cds|] eqn:A; [|destruct I].
  assert (J : In (k, cds) (delta_iter_concepts cfg d)).
  { unfold delta_iter_concepts. rewrite L. cbn. apply in_map_iff. exists (k, cds). split.
    - reflexivity.
    - eapply Permutation_in; [symmetry; apply F|]. apply (aget_in _ cid_eqb_spec) in A. exact A. }
  destruct (scan_reads _ _ _ _ _ _ _ E _ _ J) as (m & R).
  unfold maybe_read_concept in R.
  assert (DC : delta_concept d k = Some cds).
  { unfold delta_concept. rewrite L. cbn. rewrite A. reflexivity. }
  rewrite DC in R. exact (composing_unread _ _ _ _ _ R _ _ I).
Qed.

Lemma all_labels_survive (b : bool) cfg fuel t r c c1 c' z :
  reachable b c -> fair cfg ->
  run_command cfg fuel t c = Ok (z, c1) -> execute cfg fuel t c = Ok (r, c') ->
  forall n id v, get_label cfg (c_snap c) (c_delta c1) n id = Ok v ->
    get_label cfg (c_snap c') delta_default n (renamed (c_snap c) id) = Ok v.
Proof.
  intros R F E1 E n id v H. pose proof (reachable_ready _ _ R) as RD.
  destruct (execute_run cfg fuel t c r c' F RD E) as (z' & c1' & E1' & _ & _ & ST & _ & L & A & _).
  rewrite E1 in E1'. injection E1' as <- <-.
  assert (A' := A). unfold apply in A'. oinv. subst. rewrite (single_order _ L) in *.
  match goal with X : apply_directs _ _ _ = Ok ?x |- _ => rename X into A1; rename x into s1 end.
  destruct (steps_keep cfg (c_snap c) fuel false (fun d _ => listed d) (c_delta c1) s1
              (ready_sane c RD) (ready_prev c RD) ST A1 ltac:(discriminate) (step_listed cfg (c_snap c) fuel false))
    as (_ & LI).
  { intros j k ch []. }
  pose proof (label_reads_keep_hands _ _ _ _ _ _ F L LI H) as K.
  revert n id v H. intros n id v H.
  exact (labels_survive b cfg fuel t r c c1 c' z R F E1 E K n id v H).
Qed.

(** The two lookups of a name: both find something or neither does, and whatever either finds
    carries the name after the commit. *)
Lemma same_names (b : bool) cfg fuel t r c c1 c' z :
  reachable b c -> fair cfg ->
  run_command cfg fuel t c = Ok (z, c1) -> execute cfg fuel t c = Ok (r, c') ->
  forall n w v, concept_from_label cfg (c_snap c) (c_delta c1) n w = Ok v ->
  forall cfg' n' v', fair cfg' -> concept_from_label cfg' (c_snap c') delta_default n' w = Ok v' ->
    (forall x y, found_under (c_snap c') w x -> found_under (c_snap c') w y -> x = y) ->
    v' = option_map (renamed (c_snap c)) v.
Proof.
  intros R F E1 E n w v H cfg' n' v' F' H' U. pose proof (names_survive b cfg fuel t r c c1 c' z R F E1 E n w v H) as K.
  destruct v' as [x'|].
  - apply from_label_found in H'; [|exact F']. destruct H' as (y & -> & Y). destruct v as [x|].
    + cbn. f_equal. unfold renamed. f_equal. exact (U _ _ Y K).
    + destruct (K _ Y).
  - pose proof (from_label_none _ _ F' _ _ H') as N. destruct v as [x|]; [|reflexivity]. destruct (N _ K).
Qed.

(** A name that only one concept can be found under. *)
Definition lone_name (s : snapshot) (w : text) : bool :=
  match aget text_eqb w (string_map s) with
  | Some str =>
    match lookup s str with
    | Some c => match reduces_from c with
                | [n] => match lookup s n with Some c' => match reduces_from c' with [] => true | _ => false end | None => false end
                | _ => false
                end
    | None => false
    end
  | None => false
  end.
Lemma lone_name_ok s w : lone_name s w = true ->
  forall x y, found_under s w x -> found_under s w y -> x = y.
Proof.
  unfold lone_name. intros K.
  destruct (aget text_eqb w (string_map s)) as [str|] eqn:A; [|discriminate].
  destruct (lookup s str) as [c|] eqn:L; [|discriminate].
  destruct (reduces_from c) as [|n [|]] eqn:RF; try discriminate.
  destruct (lookup s n) as [c'|] eqn:L'; [|discriminate].
  destruct (reduces_from c') as [|] eqn:RF'; [|discriminate].
  assert (ONLY : forall x, found_under s w x -> exists lab, composed s n lab x).
  { intros x (str' & comp & lab & A' & P & C & _). assert (str' = str) by congruence. subst str'.
    apply t_split in P. destruct P as (m & (d & Ld & I) & P).
    assert (d = c) by congruence. subst d. rewrite RF in I. destruct I as [<-|[]].
    apply clos_rt_rt1n in P. destruct P as [|m1 m (d & Ld' & I) P]; [eauto|].
    assert (d = c') by congruence. subst d. rewrite RF' in I. destruct I. }
  intros x y X Y. destruct (ONLY _ X) as (l1 & X1), (ONLY _ Y) as (l2 & Y1).
  apply composed_at in X1. apply composed_at in Y1. congruence.
Qed.

Lemma names_answered (b : bool) cfg fuel t r c c1 c' z :
  reachable b c -> fair cfg ->
  run_command cfg fuel t c = Ok (z, c1) -> execute cfg fuel t c = Ok (r, c') ->
  forall n w v, concept_from_label cfg (c_snap c) (c_delta c1) n w = Ok v ->
    (forall x, v = Some x -> exists m, renamed (c_snap c) x = Committed m /\ found_under (c_snap c') w m) /\
    (v = None -> forall m, ~ found_under (c_snap c') w m) /\
    forall cfg' n' v', fair cfg' -> concept_from_label cfg' (c_snap c') delta_default n' w = Ok v' ->
      (v = None <-> v' = None) /\
      ((forall x y, found_under (c_snap c') w x -> found_under (c_snap c') w y -> x = y) ->
       v' = option_map (renamed (c_snap c)) v).
Proof.
  intros R F E1 E n w v H. pose proof (names_survive b cfg fuel t r c c1 c' z R F E1 E n w v H) as K. split; [|split].
  - intros x ->. exists (rho (c_snap c) x). split; [reflexivity|exact K].
  - intros ->. exact K.
  - intros cfg' n' v' F' H'. split; [|exact (same_names b cfg fuel t r c c1 c' z R F E1 E n w v H cfg' n' v' F' H')].
    destruct v' as [x'|].
    + apply from_label_found in H'; [|exact F']. destruct H' as (y & -> & Y).
      split; [|discriminate]. intros ->. destruct (K _ Y).
    + pose proof (from_label_none _ _ F' _ _ H') as N. split; [reflexivity|]. intros _.
      destruct v as [x|]; [destruct (N _ K)|reflexivity].
Qed.
