(** The laws of the store for all histories, put together from the step lemmas. *)
From Verif Require Import Snapshot Context StoreSpec MapFacts AstFacts StoreFacts StoreInv RangeFacts
  History Sim SimRead Steps Keep Links Meaning.
From Coq Require Import List String.
Import ListNotations.

Lemma contexts_are_reachable cfg fuel cmds c0 c rs :
  fair cfg -> new_context cfg fuel = Ok c0 -> run_session cfg fuel cmds c0 = Ok (rs, c) ->
  reachable (dbg cfg) c.
Proof.
  intros F N S. eapply reachable_session; eauto. eapply reachable_new; eauto.
Qed.

Lemma execute_extends (b : bool) cfg fuel t r c c' :
  reachable b c -> fair cfg -> execute cfg fuel t c = Ok (r, c') -> extends (c_snap c) (c_snap c').
Proof.
  intros R F. apply (execute_relates cfg fuel extends t c r c' F (reachable_ready _ _ R)).
  - intros s. repeat split; auto.
  - intros s s1 id d s2 S G A (E1 & E2 & E3 & E4).
    destruct (step_extends _ _ _ _ _ (sane_numbers _ S) A) as (K1 & K2 & K3 & K4).
    repeat split; auto.
  - intros s s1 s2 E1 E2 H. unfold extends, has_text, built_in, is_abstract, lookup in *.
    rewrite E1. exact H.
Qed.

Lemma execute_variables (b : bool) cfg fuel t r c c' :
  reachable b c -> fair cfg -> execute cfg fuel t c = Ok (r, c') ->
  variables_stay (c_snap c) (c_snap c').
Proof.
  intros R F. pose proof (reachable_ready _ _ R) as RD.
  apply (execute_steps cfg fuel variables_stay t c r c' F RD).
  - intros s n ch _ H. exact H.
  - apply step_variables; apply RD.
  - intros s s1 s2 E1 E2 H. unfold variables_stay, leaf_variable, lookup in *. rewrite E1. exact H.
Qed.

Lemma reachable_numbers (b : bool) c : reachable b c -> self_numbered (c_snap c).
Proof. intros R. apply (reachable_ready _ _ R). Qed.

Lemma reachable_listed (b : bool) c : reachable b c -> reductions_are_listed (c_snap c).
Proof.
  apply (reachable_keeps b reductions_are_listed); [apply kept_listed| |].
  - intros s s' E _. unfold reductions_are_listed, reduces, lists_reduction_from, lookup.
    rewrite E. auto.
  - intros n r. rewrite reduces_at, from_at_spec.
    assert (K : forallb (fun n => match red_at (c_snap base_context) n with
                                  | Some r => smem Nat.eqb n (from_at (c_snap base_context) r)
                                  | None => true end)
                        (seq 0 (List.length (concepts (c_snap base_context)))) = true)
      by (vm_compute; reflexivity).
    rewrite forallb_forall in K. intros E. specialize (K n). rewrite E in K.
    apply (smem_In _ Nat.eqb_spec). apply K. apply in_seq. unfold red_at in E.
    destruct (lookup (c_snap base_context) n) eqn:L; [|discriminate]. apply lookup_lt in L. lia.
Qed.

Lemma links_agree_reachable b c :
  reachable_with b (links_safe b) c ->
  compositions_are_listed (c_snap c) /\ listed_compositions_are_real (c_snap c) /\
  compositions_are_unique (c_snap c).
Proof. intros R. apply links_agree_spec, (reachable_links b), R. Qed.

Lemma reachable_same_built_in (b : bool) c : reachable b c ->
  same_built_in (c_snap base_context) (c_snap c).
Proof.
  intros R. apply (reachable_steps b (same_built_in (c_snap base_context)) c); auto.
  - intros cfg fuel snap _ _ _ _ _. apply step_built_in.
  - intros s s' E1 E2 [H1 H2]. split; [congruence|].
    intros n cc. rewrite <- H2. unfold built_in, lookup. rewrite E1. tauto.
  - split; [reflexivity|tauto].
Qed.

Lemma base_built_in cc : exists n, built_in (c_snap base_context) n cc /\
  bimap_by_right cc (concrete_concepts (c_snap base_context)) = Some n /\
  forall n', built_in (c_snap base_context) n' cc -> n' = n.
Proof.
  assert (K : forallb (fun n => match concrete_at (c_snap base_context) n with
                | Some cc' => option_eqb Nat.eqb
                    (bimap_by_right cc' (concrete_concepts (c_snap base_context))) (Some n)
                | None => true end) (seq 0 (List.length (concepts (c_snap base_context)))) = true)
    by (vm_compute; reflexivity).
  rewrite forallb_forall in K.
  assert (U : forall n, built_in (c_snap base_context) n cc ->
            bimap_by_right cc (concrete_concepts (c_snap base_context)) = Some n).
  { intros n B. pose proof (built_in_lt _ _ _ B) as LT. apply built_in_at in B. specialize (K n).
    rewrite B in K. specialize (K ltac:(apply in_seq; unfold size in LT; lia)).
    destruct (bimap_by_right cc _) as [m|]; [|discriminate]. cbn in K. apply Nat.eqb_eq in K. congruence. }
  assert (X : exists n, built_in (c_snap base_context) n cc).
  { destruct cc; eexists; apply built_in_at; [..].
    all: match goal with |- concrete_at _ ?n = Some ?cc =>
      let v := eval vm_compute in (bimap_by_right cc (concrete_concepts (c_snap base_context))) in
      match v with Some ?k => instantiate (1 := k) end end; vm_compute; reflexivity. }
  destruct X as (n & B). exists n. split; [exact B|]. split; [exact (U n B)|].
  intros n' B'. apply U in B. apply U in B'. congruence.
Qed.

Lemma reachable_built_in (b : bool) c : reachable b c ->
  forall cc, exists n, built_in (c_snap c) n cc /\ built_in (c_snap base_context) n cc /\
    (forall n', built_in (c_snap c) n' cc -> n' = n) /\
    (forall r, ~ reduces (c_snap c) n r) /\ (forall l r, ~ composed (c_snap c) n l r) /\
    concrete_concept_id cfg0 (c_snap c) delta_default cc = Ok (Some (Committed n)).
Proof.
  intros R cc. destruct (reachable_same_built_in b c R) as [E H].
  destruct (base_built_in cc) as (n & B & M & U). exists n.
  split; [apply H, B|]. split; [exact B|]. split; [intros n' B'; apply U, H, B'|].
  assert (B' : built_in (c_snap c) n cc) by (apply H, B). destruct B' as (k & L & S).
  split; [|split].
  - intros r (k' & comp & L' & S'). congruence.
  - intros l r (k' & fv & bv & red & L' & S'). congruence.
  - unfold concrete_concept_id. cbn. rewrite E, M. reflexivity.
Qed.

Section Commit.
  Variables (b : bool) (cfg : config) (fuel : nat) (t r : text) (c c1 c' : ctx) (z : zres text).
  Hypothesis R : reachable b c.
  Hypothesis F : fair cfg.
  Hypothesis E1 : run_command cfg fuel t c = Ok (z, c1).
  Hypothesis E : execute cfg fuel t c = Ok (r, c').
  Let CA := execute_committed_as cfg fuel t c z c1 r c' false F (reachable_ready _ _ R) E1 E
              ltac:(discriminate).
  Lemma readings_survive id m : read_concept cfg (c_snap c) (c_delta c1) id = Ok m ->
    exists m', read_concept cfg (c_snap c') delta_default (renamed (c_snap c) id) = Ok m' /\
               same_reading (c_snap c) m m'.
  Proof. intros H. destruct (ca_read _ _ _ _ _ CA id m H) as (_ & m' & H1 & H2 & _). eauto. Qed.
  Lemma normal_forms_survive n id v :
    get_normal_form cfg (c_snap c) (c_delta c1) n id = Ok v ->
    get_normal_form cfg (c_snap c') delta_default n (renamed (c_snap c) id) =
    Ok (option_map (renamed (c_snap c)) v).
  Proof. apply (normal_form_same _ _ _ _ false n CA). Qed.
  Lemma strings_survive :
    (forall s v, get_string_concept cfg (c_snap c) (c_delta c1) s = Ok v ->
       get_string_concept cfg (c_snap c') delta_default s = Ok (option_map (renamed (c_snap c)) v)) /\
    (forall cc v, concrete_concept_id cfg (c_snap c) (c_delta c1) cc = Ok v ->
       concrete_concept_id cfg (c_snap c') delta_default cc = Ok (option_map (renamed (c_snap c)) v)).
  Proof.
    split; [apply (ca_string _ _ _ _ _ CA)|]. intros cc v H. apply (ca_concrete _ _ _ _ _ CA cc v H).
  Qed.
  Lemma labels_survive :
    (forall id x, In (id, x) (d_order (overlay (c_delta c1))) -> keeps_hands x) ->
    forall n id v, get_label cfg (c_snap c) (c_delta c1) n id = Ok v ->
      get_label cfg (c_snap c') delta_default n (renamed (c_snap c) id) = Ok v.
  Proof.
    intros K n. apply label_same.
    exact (execute_committed_as cfg fuel t c z c1 r c' true F (reachable_ready _ _ R) E1 E (fun _ => K)).
  Qed.
End Commit.

Lemma reachable_well_founded (b : bool) c :
  reachable b c -> compositions_are_well_founded (c_snap c).
Proof.
  apply (reachable_steps b compositions_are_well_founded c).
  - intros cfg fuel snap _ _ S P _. apply step_well_founded; assumption.
  - intros s s' E _ W. apply (wf_same s); [exact W|]. intros i. unfold comp_at, lookup.
    rewrite E. reflexivity.
  - assert (K : forallb (fun n => match comp_at (c_snap base_context) n with
                 | Some (l, r) =>
                   match comp_at (c_snap base_context) l, comp_at (c_snap base_context) r with
                   | None, None => true | _, _ => false end
                 | None => true end) (seq 0 (List.length (concepts (c_snap base_context)))) = true)
      by (vm_compute; reflexivity).
    rewrite forallb_forall in K.
    assert (LEAF : forall i, comp_at (c_snap base_context) i = None -> Acc (part (c_snap base_context)) i).
    { intros i N. constructor. intros p (l & q & C & _). apply composed_at in C. congruence. }
    intros i. constructor. intros p (l & q & C & O). apply composed_at in C. apply LEAF.
    specialize (K i). rewrite C in K.
    assert (I : In i (seq 0 (List.length (concepts (c_snap base_context))))).
    { apply in_seq. unfold comp_at in C. destruct (lookup (c_snap base_context) i) eqn:L; [|discriminate].
      apply lookup_lt in L. lia. }
    specialize (K I).
    destruct (comp_at (c_snap base_context) l) eqn:CL; [discriminate|].
    destruct (comp_at (c_snap base_context) q) eqn:CQ; [discriminate|].
    destruct O; subst; assumption.
Qed.
