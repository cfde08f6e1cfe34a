(** The memory of inferences holds inferences only. *)
From Verif Require Import Snapshot Search Questions MapFacts StoreFacts.
From Coq Require Import List.
Import ListNotations.
Local Open Scope zia_scope.

(** Every remembered inference that gives a result gives an inference as the reason. *)
Definition by_inference (r : rresult) : Prop :=
  forall t why, r = Some (t, why) -> exists i c, why = RInference i c.
Definition inferences (l : list (cid * rresult)) : Prop := forall c r, In (c, r) l -> by_inference r.
Definition skeeps {A} (m : SM A) : Prop :=
  forall s a s', inferences (s_inf s) -> m s = Ok (a, s') -> inferences (s_inf s').
Lemma skeeps_ret {A} (a : A) : skeeps (sret a).
Proof. intros s b s' H [= _ <-]. exact H. Qed.
Lemma skeeps_bind A B (m : SM A) (f : A -> SM B) : skeeps m -> (forall a, skeeps (f a)) -> skeeps (sbind m f).
Proof. intros H K s b s' I E. apply sb in E. destruct E as (a & s1 & E1 & E2). eapply K; [|exact E2]. eapply H; eassumption. Qed.
Lemma skeeps_lift A (x : outcome A) : skeeps (slift x).
Proof. intros s a s' H E. unfold slift in E. apply obind_ok in E. destruct E as (y & _ & [= _ <-]). exact H. Qed.
Lemma skeeps_smap A B (f : A -> B) (m : SM A) : skeeps m -> skeeps (smap f m).
Proof. intros H. unfold smap. apply skeeps_bind; [exact H|]. intros a. apply skeeps_ret. Qed.
Lemma skeeps_and_then A B (m : SM (option A)) (f : A -> SM (option B)) :
  skeeps m -> (forall a, skeeps (f a)) -> skeeps (and_then m f).
Proof. intros H K. unfold and_then. apply skeeps_bind; [exact H|]. intros [a|]; [apply K|apply skeeps_ret]. Qed.
Lemma skeeps_or_else A (m n : SM (option A)) : skeeps m -> skeeps n -> skeeps (or_else m n).
Proof. intros H K. unfold or_else. apply skeeps_bind; [exact H|]. intros [a|]; [apply skeeps_ret|exact K]. Qed.
Lemma skeeps_opt_then A B (o : option A) (f : A -> SM (option B)) :
  (forall a, skeeps (f a)) -> skeeps (opt_then o f).
Proof. intros K. destruct o; [apply K|apply skeeps_ret]. Qed.
Lemma skeeps_find_map A B (f : A -> SM (option B)) l : (forall a, skeeps (f a)) -> skeeps (find_map f l).
Proof.
  intros K. induction l as [|a l IH]; cbn [find_map]; [apply skeeps_ret|].
  apply skeeps_or_else; [apply K|exact IH].
Qed.
Lemma skeeps_fuel A : skeeps (out_of_fuel : SM A).
Proof. intros s a s' _ E. discriminate. Qed.
Create HintDb skeeps.
#[export] Hint Constants Opaque : skeeps.
#[export] Hint Resolve skeeps_ret : skeeps.

Record ops_keep (o : ops) : Prop := {
  ok_reduce : forall e t, skeeps (o_reduce o e t);
  ok_to_ast : forall e c, skeeps (o_to_ast o e c);
  ok_assoc : forall e t, skeeps (o_assoc o e t);
  ok_expand : forall e t, skeeps (o_expand o e t);
  ok_nf : forall e t w, skeeps (o_nf o e t w);
  ok_evidence : forall e l r, skeeps (o_evidence o e l r);
  ok_examples : forall R e g eqs (k : ex_subs -> SM (option R)),
      (forall x, skeeps (k x)) -> skeeps (o_examples o e g eqs k);
  (* an example is used only by way of the continuation *)
  ok_used : forall R e g eqs (k : ex_subs -> SM (option R)) s b s',
      o_examples o e g eqs k s = Ok (Some b, s') -> exists subs s1 s2, k subs s1 = Ok (Some b, s2)
}.
Lemma or_else_some {A} (m1 m2 : SM (option A)) s a s' :
  or_else m1 m2 s = Ok (Some a, s') ->
  m1 s = Ok (Some a, s') \/ exists s1, m1 s = Ok (None, s1) /\ m2 s1 = Ok (Some a, s').
Proof.
  unfold or_else. intros E. apply sb in E. destruct E as ([x|] & s1 & E1 & E).
  - injection E as <- <-. now left.
  - right. eauto.
Qed.
Lemma find_map_some {A B} (f : A -> SM (option B)) l : forall s b s',
  find_map f l s = Ok (Some b, s') -> exists a s1 s2, In a l /\ f a s1 = Ok (Some b, s2).
Proof.
  induction l as [|a l IH]; intros s b s' E; [discriminate|]. cbn [find_map] in E.
  apply or_else_some in E. destruct E as [E|(s1 & E1 & E)].
  - exists a, s, s'. split; [now left|exact E].
  - destruct (IH _ _ _ E) as (a' & s2 & s3 & I & H). exists a', s2, s3. split; [now right|exact H].
Qed.
#[export] Hint Resolve ok_reduce ok_to_ast ok_assoc ok_expand ok_nf ok_evidence : skeeps.

Ltac primitive :=
  (intros ?s ?a ?s' ?I; 
   unfold fresh_tick, new_red_cache, new_syn_cache, cached_reduction, insert_reduction, cached_syntax,
     insert_syntax, cached_inference;
   intros [= _ <-];
   repeat match goal with |- context [if ?x then _ else _] => destruct x end; assumption).
Ltac step_keeps :=
  match goal with
  | |- skeeps (sbind _ _) => apply skeeps_bind; [|intros ?]
  | |- skeeps (slift _) => apply skeeps_lift
  | |- skeeps (smap _ _) => apply skeeps_smap
  | |- skeeps (and_then _ _) => apply skeeps_and_then; [|intros ?]
  | |- skeeps (or_else _ _) => apply skeeps_or_else
  | |- skeeps (opt_then _ _) => apply skeeps_opt_then; intros ?
  | |- skeeps (find_map _ _) => apply skeeps_find_map; intros ?
  | |- skeeps (spawn _ _ _) => unfold spawn
  | H : ops_keep ?o |- skeeps (o_examples ?o _ _ _ _) => apply (ok_examples _ H); intros ?
  | |- skeeps (match ?x with _ => _ end) => destruct x
  | |- skeeps _ => solve [eauto 2 with skeeps]
  | |- skeeps _ => solve [primitive]
  | |- skeeps _ => progress cbv zeta
  end.

Section Steps.
  Variables (cfg : config) (snap : snapshot) (rf : nat) (o : ops).
  Hypothesis O : ops_keep o.
  Hint Resolve O : skeeps.
  Ltac t := repeat step_keeps.
  Lemma read_keeps e c : skeeps (read cfg snap e c).
  Proof. unfold read. t. Qed.
  Lemma concrete_id_keeps e c : skeeps (concrete_id cfg snap e c).
  Proof. unfold concrete_id. t. Qed.
  Lemma concrete_type_keeps e c : skeeps (concrete_type cfg snap e c).
  Proof. unfold concrete_type. t. Qed.
  Hint Resolve read_keeps concrete_id_keeps concrete_type_keeps : skeeps.
  Lemma concrete_type_of_ast_keeps e x :
    skeeps (concrete_type_of_ast cfg snap e x).
  Proof. unfold concrete_type_of_ast. t. Qed.
  Lemma is_concrete_type_keeps e cc x :
    skeeps (is_concrete_type cfg snap e cc x).
  Proof. unfold is_concrete_type. t. Qed.
  Lemma composition_of_concept_keeps e x :
    skeeps (composition_of_concept cfg snap e x).
  Proof. unfold composition_of_concept. t. Qed.
  Lemma is_free_variable_keeps e x :
    skeeps (is_free_variable cfg snap e x).
  Proof. unfold is_free_variable. t. Qed.
  Hint Resolve concrete_type_of_ast_keeps is_concrete_type_keeps composition_of_concept_keeps is_free_variable_keeps : skeeps.
  Lemma is_leaf_variable_concept_keeps e x :
    skeeps (is_leaf_variable_concept cfg snap e x).
  Proof. unfold is_leaf_variable_concept. t. Qed.
  Lemma contains_bound_keeps e x :
    skeeps (contains_bound_variable_syntax cfg snap e x).
  Proof. induction x as [s c k|s c l IHl r IHr fv bv]; cbn [contains_bound_variable_syntax]; t. Qed.
  Hint Resolve is_leaf_variable_concept_keeps contains_bound_keeps : skeeps.
  Lemma check_generalisation_keeps e x : forall g,
    skeeps (check_generalisation cfg snap e x g).
  Proof. induction x as [s c k|s c l IHl r IHr fv bv]; intros g; cbn [check_generalisation]; t. Qed.
  Lemma add_compositions_keeps e h gs : forall acc,
    skeeps (add_compositions cfg snap e h gs acc).
  Proof. induction gs as [|g gs IH]; intros acc; cbn [add_compositions]; t. Qed.
  Hint Resolve check_generalisation_keeps add_compositions_keeps : skeeps.
  Lemma find_generalisations_keeps e x :
    skeeps (find_generalisations cfg snap e x).
  Proof. induction x as [s c k|s c l IHl r IHr fv bv]; cbn [find_generalisations]; t. Qed.
  Hint Resolve find_generalisations_keeps : skeeps.
  Lemma equivalence_set_keeps e c :
    skeeps (equivalence_set cfg snap e c).
  Proof. unfold equivalence_set. t. Qed.
  Lemma composition_concept_keeps e l r :
    skeeps (composition_concept cfg snap e l r).
  Proof. unfold composition_concept. t. Qed.
  Lemma shuffle_keeps A (l : list A) : skeeps (shuffle cfg l).
  Proof. unfold shuffle; t. Qed.
  Hint Resolve equivalence_set_keeps composition_concept_keeps shuffle_keeps : skeeps.

  Lemma display_joint_keeps e l r : skeeps (display_joint o e l r).
  Proof. unfold display_joint. t. Qed.
  Hint Resolve display_joint_keeps : skeeps.
  Lemma join_keeps e l r : skeeps (join o e l r).
  Proof. unfold join. t. Qed.
  Hint Resolve join_keeps : skeeps.
  Lemma combine_ast_keeps e l r : skeeps (combine_ast cfg snap o e l r).
  Proof. unfold combine_ast. t. Qed.
  Hint Resolve combine_ast_keeps : skeeps.
  Lemma contract_pair_keeps e l r :
    skeeps (contract_pair cfg snap rf o e l r).
  Proof. unfold contract_pair. t. Qed.
  Hint Resolve contract_pair_keeps : skeeps.
  Lemma substitute_keeps e t m :
    skeeps (substitute cfg snap rf o e t m).
  Proof. induction t as [s c k|s c l IHl r IHr fv bv]; cbn [substitute]; t. Qed.
  Hint Resolve substitute_keeps : skeeps.
  Lemma concrete_ast_keeps e cc : skeeps (concrete_ast cfg snap o e cc).
  Proof. unfold concrete_ast. t. Qed.
  Hint Resolve concrete_ast_keeps : skeeps.
  Lemma get_associativity_keeps e x :
    skeeps (get_associativity cfg snap o e x).
  Proof. unfold get_associativity. t. Qed.
  Lemma to_ast_keeps e c : skeeps (to_ast cfg snap rf o e c).
  Proof. unfold to_ast. t. Qed.
  Lemma expand_keeps e x : skeeps (expand cfg snap o e x).
  Proof. unfold expand. t. Qed.
  Lemma normal_form_keeps e x w : skeeps (normal_form o e x w).
  Proof. unfold normal_form. t. Qed.
  Lemma recursively_reduce_keeps e x : skeeps (recursively_reduce o e x).
  Proof. unfold recursively_reduce. t. Qed.
  Hint Resolve recursively_reduce_keeps : skeeps.
  Lemma determine_evidence_keeps e l r : skeeps (determine_evidence o e l r).
  Proof. unfold determine_evidence. t. Qed.
  Lemma determine_reduction_truth_keeps e l r :
    skeeps (determine_reduction_truth o e l r).
  Proof. unfold determine_reduction_truth. t. Qed.
  Hint Resolve determine_reduction_truth_keeps : skeeps.
  Lemma compare_one_keeps e h x : skeeps (compare_one cfg snap o e h x).
  Proof. unfold compare_one. t. Qed.
  Hint Resolve compare_one_keeps : skeeps.
  Lemma compare_keeps e a b : skeeps (Search.compare cfg snap o e a b).
  Proof. unfold Search.compare. t. Qed.
  Hint Resolve compare_keeps : skeeps.
  Lemma right_branch_keeps e l rl rr :
    skeeps (reduce_by_expanded_right_branch cfg snap o e l rl rr).
  Proof. unfold reduce_by_expanded_right_branch. t. Qed.
  Hint Resolve right_branch_keeps : skeeps.
  Lemma find_example_keeps e g ts : skeeps (find_example o e g ts).
  Proof. unfold find_example. t. Qed.
  Hint Resolve find_example_keeps : skeeps.
  Lemma half_generalisation_keeps e g n eqs h :
    skeeps (half_generalisation cfg snap o e g n eqs h).
  Proof. unfold half_generalisation. t. Qed.
  Hint Resolve half_generalisation_keeps : skeeps.
  Lemma example_of_both_keeps e l r el er :
    skeeps (example_of_both cfg snap rf o e l r el er).
  Proof. unfold example_of_both. t. Qed.
  Hint Resolve example_of_both_keeps : skeeps.
  Lemma branched_examples_keeps R e l r eqs (k : ex_subs -> SM (option R)) :
    (forall x, skeeps (k x)) ->
    skeeps (branched_examples cfg snap rf o e l r eqs k).
  Proof. intros K. unfold branched_examples. t. Qed.
  Lemma find_examples_keeps R e g eqs (k : ex_subs -> SM (option R)) :
    (forall x, skeeps (k x)) -> skeeps (find_examples cfg snap rf o e g eqs k).
  Proof. intros K. unfold find_examples. pose proof branched_examples_keeps. t. Qed.
  Lemma inferred_keeps e x :
    skeeps (find_examples_of_inferred_reduction cfg snap rf o e x).
  Proof. unfold find_examples_of_inferred_reduction. t. Qed.
  Hint Resolve inferred_keeps : skeeps.
  Lemma inferred_by e x s r s' :
    find_examples_of_inferred_reduction cfg snap rf o e x s = Ok (r, s') -> by_inference r.
  Proof.
    intros E2 t0 why ->. unfold find_examples_of_inferred_reduction in E2.
    apply at_some in E2. destruct E2 as (i1 & s12 & _ & E2). apply at_some in E2.
    destruct E2 as (i2 & s13 & _ & E2). apply sb in E2. destruct E2 as ([v1 d1] & s14 & _ & E2).
    apply sb in E2. destruct E2 as ([v2 d2] & s15 & _ & E2). apply sb in E2.
    destruct E2 as ([v3 d3] & s16 & _ & E2). apply sb in E2. destruct E2 as (h & s17 & _ & E2).
    apply sb in E2. destruct E2 as (e0 & s18 & _ & E2). apply sb in E2.
    destruct E2 as (is & s19 & _ & E2). apply sb in E2. destruct E2 as (t1 & s20 & _ & E2).
    apply sb in E2. destruct E2 as (t2 & s21 & _ & E2). apply sb in E2.
    destruct E2 as (t3 & s22 & _ & E2). apply (ok_used _ O) in E2.
    destruct E2 as (subs & s23 & s24 & E2).
    destruct (aget key_eqb _ (es_gen subs)) as [cond|]; [|discriminate]. cbn [opt_then] in E2.
    apply sb in E2. destruct E2 as (sc & s25 & _ & E2). apply sb in E2.
    destruct E2 as ([nf wy] & s26 & _ & E2). destruct (t_concept nf); [|discriminate].
    cbn [opt_then] in E2. apply at_some in E2. destruct E2 as (x1 & s27 & _ & E2).
    destruct (aget key_eqb _ (es_gen subs)) as [res|]; [|discriminate]. cbn [opt_then] in E2.
    apply sb in E2. destruct E2 as (rs & s28 & _ & E2). injection E2 as _ <- _. eauto.
  Qed.
  Lemma infer_reduction_keeps e m :
    skeeps (infer_reduction cfg snap rf o e m).
  Proof.
    unfold infer_reduction. apply skeeps_and_then; [t|intros imp]. apply skeeps_or_else; [t|].
    apply skeeps_bind; [t|intros [rr0|]]; [t|]. apply skeeps_bind; [t|intros x0].
    intros s0 b0 s1 H E. apply sb in E. destruct E as (rr & s2 & E1 & E).
    assert (H2 : inferences (s_inf s2)) by (eapply inferred_keeps; eassumption).
    apply inferred_by in E1. apply sb in E. destruct E as ([] & s3 & E2 & [= _ <-]).
    injection E2 as <-. cbn [s_inf]. intros c r I. apply (in_aset _ cid_eqb_spec) in I.
    destruct I as [[-> ->]|I]; [exact E1|]. eapply H2. exact I.
  Qed.
  Hint Resolve infer_reduction_keeps : skeeps.
  Lemma infer_by e m s r s' :
    inferences (s_inf s) -> infer_reduction cfg snap rf o e m s = Ok (r, s') -> by_inference r.
  Proof.
    intros H E t0 why ->. unfold infer_reduction in E. apply at_some in E.
    destruct E as (imp & s1 & E1 & E).
    assert (H1 : inferences (s_inf s1)) by (eapply concrete_id_keeps; eassumption).
    apply or_else_some in E. destruct E as [E|(s2 & E2 & E)].
    - destruct (m_find_as_hand m imp HRight) as [comp|]; [|discriminate]. cbn [opt_then] in E.
      apply sb in E. destruct E as (cm & s7 & _ & E). apply find_map_some in E.
      destruct E as ([cond rule] & s8 & s9 & _ & E). apply sb in E. destruct E as (ct & s10 & _ & E).
      apply at_some in E. destruct E as ([ct' r1] & s11 & _ & E).
      destruct (t_concept ct'); [|discriminate]. cbn [opt_then] in E. apply at_some in E.
      destruct E as (x & s12 & _ & E). apply sb in E. destruct E as (xt & s13 & _ & E).
      apply sb in E. destruct E as (rt & s14 & _ & E). injection E as _ <- _. eauto.
    - assert (H2 : inferences (s_inf s2)).
      { revert E2. match goal with |- ?m s1 = _ -> _ => assert (K : skeeps m) by t end.
        intros E2. eapply K; eassumption. }
      apply sb in E. destruct E as (ci & s3 & Ec & E). injection Ec as Ec <-. destruct ci as [rr|].
      + injection E as -> _. apply (aget_In _ cid_eqb_spec) in Ec. eapply H2; [exact Ec|reflexivity].
      + apply sb in E. destruct E as (x & s4 & _ & E). apply sb in E. destruct E as (rr & s5 & E3 & E).
        apply sb in E. destruct E as ([] & s6 & _ & [= -> _]). eapply inferred_by; [exact E3|reflexivity].
  Qed.
  Lemma concept_by e c s t0 why s' :
    inferences (s_inf s) -> reduce_concept cfg snap rf o e c s = Ok (Some (t0, why), s') ->
    why = RExplicit \/ exists i r, why = RInference i r.
  Proof.
    intros H E. unfold reduce_concept in E. apply sb in E. destruct E as (mx & s1 & E1 & E).
    assert (H1 : inferences (s_inf s1)) by (eapply read_keeps; eassumption).
    apply or_else_some in E. destruct E as [E|(s2 & _ & E)].
    - right. destruct (smem _ _ _); [discriminate|]. eapply infer_by; [exact H1|exact E|reflexivity].
    - left. destruct (m_reduction mx); [|discriminate]. cbn [opt_then] in E. apply sb in E.
      destruct E as (v & s7 & _ & E). apply at_some in E. destruct E as (y & s8 & _ & E). now injection E.
  Qed.
  Lemma reduce_concept_keeps e c :
    skeeps (reduce_concept cfg snap rf o e c).
  Proof. unfold reduce_concept. t. Qed.
  Hint Resolve reduce_concept_keeps : skeeps.
  Lemma left_branch_keeps e ll lr r :
    skeeps (reduce_by_expanded_left_branch cfg snap o e ll lr r).
  Proof. unfold reduce_by_expanded_left_branch. t. Qed.
  Hint Resolve left_branch_keeps : skeeps.
  Lemma try_rule_keeps e h x g : skeeps (try_rule cfg snap rf o e h x g).
  Proof. unfold try_rule. t. Qed.
  Hint Resolve try_rule_keeps : skeeps.
  Lemma recursively_reduce_pair_keeps e l r :
    skeeps (recursively_reduce_pair cfg snap rf o e l r).
  Proof. unfold recursively_reduce_pair. t. Qed.
  Hint Resolve recursively_reduce_pair_keeps : skeeps.
  Lemma reduce_pair_keeps e l r :
    skeeps (reduce_pair cfg snap rf o e l r).
  Proof. unfold reduce_pair. t. Qed.
  Hint Resolve reduce_pair_keeps : skeeps.
  Lemma reduce_keeps e x : skeeps (reduce cfg snap rf o e x).
  Proof. unfold reduce. t. Qed.
  Lemma examples_used : forall R e g eqs (k : ex_subs -> SM (option R)) s b s',
    find_examples cfg snap rf o e g eqs k s = Ok (Some b, s') -> exists subs s1 s2, k subs s1 = Ok (Some b, s2).
  Proof.
    intros R e g eqs k s b s' E. unfold find_examples in E. destruct (t_exp g) as [[l r]|].
    - unfold branched_examples in E. apply sb in E. destruct E as (bl & s1 & _ & E).
      apply sb in E. destruct E as (br & s2 & _ & E). destruct bl, br.
      + apply find_map_some in E. destruct E as (c & s3 & s4 & _ & E). apply sb in E.
        destruct E as (comp & s5 & _ & E). destruct comp as [[el er]|]; [|discriminate].
        apply at_some in E. destruct E as (subs & s6 & _ & E). eauto.
      + apply at_some in E. destruct E as (subs & s6 & _ & E). eauto.
      + apply at_some in E. destruct E as (subs & s6 & _ & E). eauto.
      + discriminate.
    - apply sb in E. destruct E as ([] & s1 & _ & E). apply find_map_some in E.
      destruct E as (c & s3 & s4 & _ & E). apply sb in E. destruct E as (t & s5 & _ & E). eauto.
  Qed.
  Lemma step_keeps_ops : ops_keep (step cfg snap rf o).
  Proof.
    constructor; intros; cbn [step o_reduce o_to_ast o_assoc o_expand o_nf o_evidence o_examples].
    - apply reduce_keeps.
    - apply to_ast_keeps.
    - apply get_associativity_keeps.
    - apply expand_keeps.
    - apply normal_form_keeps.
    - apply determine_evidence_keeps.
    - apply find_examples_keeps. assumption.
    - match goal with H : _ = Ok _ |- _ => exact (examples_used _ _ _ _ _ _ _ _ H) end.
  Qed.
End Steps.
Lemma search_keeps cfg snap rf n : ops_keep (search cfg snap rf n).
Proof.
  induction n as [|n IH]; cbn [search]; [constructor; intros; cbn in *; first [discriminate|apply skeeps_fuel]|].
  apply step_keeps_ops. exact IH.
Qed.
