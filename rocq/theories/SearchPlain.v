(** Searches fail only in ways that end the command. *)
From Verif Require Import Snapshot Search Context Quiet.
From Coq Require Import List String.
Import ListNotations.
Local Open Scope zia_scope.

Lemma plain_label cfg snap d n : forall c, plain (get_label cfg snap d n c).
Proof.
  induction n as [|n IH]; intros c; cbn [get_label]; [intros e E; discriminate E|].
  apply plain_bind; [apply plain_concept_of_label|]. intros [l|]; (apply plain_bind; [|intros m]).
  - apply plain_normal_form.
  - destruct m as [m|]; [apply plain_omap, plain_read|intros e E; discriminate E].
  - apply plain_read.
  - destruct (m_reduction m); [apply IH|intros e E; discriminate E].
Qed.
Lemma plain_ok {A} (a : A) : plain (Ok a).
Proof. intros e E. discriminate E. Qed.
Lemma plain_panic {A} s : plain (Panic s : outcome A).
Proof. intros e E. discriminate E. Qed.
Lemma plain_oand a b : plain a -> plain b -> plain (oand a b).
Proof. intros H K. unfold oand. apply plain_bind; [exact H|]. intros []; [exact K|apply plain_ok]. Qed.
Fixpoint plain_reason (a : reason) : forall b, plain (reason_eq a b)
with plain_creason (a : comparison_reason) : forall b, plain (creason_eq a b).
Proof.
  - destruct a; intros b; cbn [reason_eq]; destruct b;
      first [apply plain_ok | apply plain_panic | apply plain_creason | idtac].
    + match goal with |- plain (if ?x then _ else _) => destruct x; [apply plain_reason|apply plain_ok] end.
    + match goal with |- plain (if ?x then _ else _) => destruct x; [apply plain_reason|apply plain_ok] end.
    + match goal with |- plain (if ?x then _ else _) => destruct x; [|apply plain_ok] end.
      induction p as [|[k [t1 r1]] p IH]; [apply plain_ok|].
      destruct (aget key_eqb k p0) as [[t2 r2]|]; [|apply plain_ok].
      destruct (key_eqb (t_key t1) (t_key t2)); [|apply plain_ok].
      apply plain_oand; [apply plain_reason|exact IH].
    + match goal with |- plain (if ?x then _ else _) => destruct x; [|apply plain_ok] end.
      apply plain_oand; apply plain_reason.
    + apply plain_oand; [apply plain_reason|apply plain_ok].
  - destruct a as [|r1 r2|]; intros b; cbn [creason_eq]; destruct b as [|q1 q2|]; try apply plain_ok.
    apply plain_oand.
    + destruct r1 as [r1|], q1 as [q1|]; try apply plain_ok. apply plain_reason.
    + destruct r2 as [r2|], q2 as [q2|]; try apply plain_ok. apply plain_reason.
Defined.
Lemma plain_oreason a b : plain (oreason_eq a b).
Proof. destruct a, b; try apply plain_ok. apply plain_reason. Qed.
Lemma plain_simplify r rr : plain (simplify_reasoning r rr).
Proof.
  unfold simplify_reasoning. cbv zeta.
  repeat match goal with
  | |- plain (obind _ _) => apply plain_bind; [apply plain_oreason|intros ?]
  | |- plain (Ok _) => apply plain_ok
  | |- plain (match ?x with _ => _ end) => destruct x
  end.
Qed.
Lemma plain_insert_new nd d : plain (delta_insert_new nd d).
Proof.
  destruct d as [l i]. unfold delta_insert_new, insert_new, insert_delta. cbv zeta.
  apply plain_bind; [|intros []; apply plain_ok]. apply plain_bind; [|intros ?; apply plain_ok].
  repeat match goal with
  | |- plain (Ok _) => apply plain_ok
  | |- plain (Panic _) => apply plain_panic
  | |- plain (match ?x with _ => _ end) => destruct x
  end.
Qed.
Definition splain {A} (m : SM A) : Prop := forall s, plain (m s).
Lemma splain_ret {A} (a : A) : splain (sret a).
Proof. intros s e E. discriminate E. Qed.
Lemma splain_ok {A} (f : sstate -> A * sstate) : splain (fun s => Ok (f s)).
Proof. intros s e E. discriminate E. Qed.
Lemma splain_bind A B (m : SM A) (f : A -> SM B) :
  splain m -> (forall a, splain (f a)) -> splain (sbind m f).
Proof. intros H K s. unfold sbind. apply plain_bind; [apply H|]. intros [a s']. apply K. Qed.
Lemma splain_lift A (x : outcome A) : plain x -> splain (slift x).
Proof. intros H s. unfold slift. apply plain_bind; [exact H|]. intros a e E. discriminate E. Qed.
Lemma splain_smap A B (f : A -> B) (m : SM A) : splain m -> splain (smap f m).
Proof. intros H. unfold smap. apply splain_bind; [exact H|]. intros a. apply splain_ret. Qed.
Lemma splain_and_then A B (m : SM (option A)) (f : A -> SM (option B)) :
  splain m -> (forall a, splain (f a)) -> splain (and_then m f).
Proof. intros H K. unfold and_then. apply splain_bind; [exact H|]. intros [a|]; [apply K|apply splain_ret]. Qed.
Lemma splain_or_else A (m n : SM (option A)) : splain m -> splain n -> splain (or_else m n).
Proof. intros H K. unfold or_else. apply splain_bind; [exact H|]. intros [a|]; [apply splain_ret|exact K]. Qed.
Lemma splain_opt_then A B (o : option A) (f : A -> SM (option B)) :
  (forall a, splain (f a)) -> splain (opt_then o f).
Proof. intros K. destruct o; [apply K|apply splain_ret]. Qed.
Lemma splain_find_map A B (f : A -> SM (option B)) l : (forall a, splain (f a)) -> splain (find_map f l).
Proof.
  intros K. induction l as [|a l IH]; cbn [find_map]; [apply splain_ret|].
  apply splain_or_else; [apply K|exact IH].
Qed.
Create HintDb splain.
#[export] Hint Constants Opaque : splain.
#[export] Hint Resolve splain_ret : splain.

Record ops_plain (o : ops) : Prop := {
  op_reduce : forall e t, splain (o_reduce o e t);
  op_to_ast : forall e c, splain (o_to_ast o e c);
  op_assoc : forall e t, splain (o_assoc o e t);
  op_expand : forall e t, splain (o_expand o e t);
  op_nf : forall e t w, splain (o_nf o e t w);
  op_evidence : forall e l r, splain (o_evidence o e l r);
  op_examples : forall R e g eqs (k : ex_subs -> SM (option R)),
      (forall x, splain (k x)) -> splain (o_examples o e g eqs k)
}.
#[export] Hint Resolve op_reduce op_to_ast op_assoc op_expand op_nf op_evidence : splain.

Ltac primitive :=
  first [apply splain_ok | unfold fresh_tick; apply splain_ok | unfold new_red_cache; apply splain_ok
    | unfold new_syn_cache; apply splain_ok | unfold cached_reduction; apply splain_ok
    | unfold insert_reduction; apply splain_ok | unfold cached_syntax; apply splain_ok
    | unfold insert_syntax; apply splain_ok | unfold cached_inference; apply splain_ok
    | unfold insert_inference; apply splain_ok].
Ltac step_plain :=
  match goal with
  | |- splain (sbind _ _) => apply splain_bind; [|intros ?]
  | |- splain (slift _) => apply splain_lift
  | |- splain (smap _ _) => apply splain_smap
  | |- splain (and_then _ _) => apply splain_and_then; [|intros ?]
  | |- splain (or_else _ _) => apply splain_or_else
  | |- splain (opt_then _ _) => apply splain_opt_then; intros ?
  | |- splain (find_map _ _) => apply splain_find_map; intros ?
  | |- splain (spawn _ _ _) => unfold spawn
  | H : ops_plain ?o |- splain (o_examples ?o _ _ _ _) => apply (op_examples _ H); intros ?
  | |- splain (match ?x with _ => _ end) => destruct x
  | |- splain _ => solve [eauto 2 with splain]
  | |- splain _ => primitive
  | |- splain _ => progress cbv zeta
  | |- plain (read_concept _ _ _ _) => apply plain_read
  | |- plain (concrete_concept_id _ _ _ _) => apply plain_concrete_id
  | |- plain (concrete_concept_type _ _ _ _) => apply plain_type
  | |- plain (concept_from_label _ _ _ _ _) => apply plain_from_label
  | |- plain (get_label _ _ _ _ _) => apply plain_label
  | |- plain (bind_concept_to_syntax _ _ _ _ _) => apply plain_bind_to_syntax
  | |- plain (dassert _ _ _) => apply plain_dassert
  | |- plain (unwrap _ _) => apply plain_unwrap
  | |- plain (simplify_reasoning _ _) => apply plain_simplify
  | |- plain (delta_insert_new _ _) => apply plain_insert_new
  | |- plain (Panic _) => intros ? ?; discriminate
  | |- plain (Ok _) => intros ? ?; discriminate
  | |- plain OutOfFuel => intros ? ?; discriminate
  end.

Section Steps.
  Variables (cfg : config) (snap : snapshot) (rf : nat) (o : ops).
  Hypothesis O : ops_plain o.
  Hint Resolve O : splain.
  Ltac t := repeat step_plain.
  Lemma read_plain e c : splain (read cfg snap e c).
  Proof. unfold read. t. Qed.
  Lemma concrete_id_plain e c : splain (concrete_id cfg snap e c).
  Proof. unfold concrete_id. t. Qed.
  Lemma concrete_type_plain e c : splain (concrete_type cfg snap e c).
  Proof. unfold concrete_type. t. Qed.
  Hint Resolve read_plain concrete_id_plain concrete_type_plain : splain.
  Lemma concrete_type_of_ast_plain e x :
    splain (concrete_type_of_ast cfg snap e x).
  Proof. unfold concrete_type_of_ast. t. Qed.
  Lemma is_concrete_type_plain e cc x :
    splain (is_concrete_type cfg snap e cc x).
  Proof. unfold is_concrete_type. t. Qed.
  Lemma composition_of_concept_plain e x :
    splain (composition_of_concept cfg snap e x).
  Proof. unfold composition_of_concept. t. Qed.
  Lemma is_free_variable_plain e x :
    splain (is_free_variable cfg snap e x).
  Proof. unfold is_free_variable. t. Qed.
  Hint Resolve concrete_type_of_ast_plain is_concrete_type_plain composition_of_concept_plain is_free_variable_plain : splain.
  Lemma is_leaf_variable_concept_plain e x :
    splain (is_leaf_variable_concept cfg snap e x).
  Proof. unfold is_leaf_variable_concept. t. Qed.
  Lemma contains_bound_plain e x :
    splain (contains_bound_variable_syntax cfg snap e x).
  Proof. induction x as [s c k|s c l IHl r IHr fv bv]; cbn [contains_bound_variable_syntax]; t. Qed.
  Hint Resolve is_leaf_variable_concept_plain contains_bound_plain : splain.
  Lemma check_generalisation_plain e x : forall g,
    splain (check_generalisation cfg snap e x g).
  Proof. induction x as [s c k|s c l IHl r IHr fv bv]; intros g; cbn [check_generalisation]; t. Qed.
  Lemma add_compositions_plain e h gs : forall acc,
    splain (add_compositions cfg snap e h gs acc).
  Proof. induction gs as [|g gs IH]; intros acc; cbn [add_compositions]; t. Qed.
  Hint Resolve check_generalisation_plain add_compositions_plain : splain.
  Lemma find_generalisations_plain e x :
    splain (find_generalisations cfg snap e x).
  Proof. induction x as [s c k|s c l IHl r IHr fv bv]; cbn [find_generalisations]; t. Qed.
  Hint Resolve find_generalisations_plain : splain.
  Lemma equivalence_set_plain e c :
    splain (equivalence_set cfg snap e c).
  Proof. unfold equivalence_set. t. Qed.
  Lemma composition_concept_plain e l r :
    splain (composition_concept cfg snap e l r).
  Proof. unfold composition_concept. t. Qed.
  Lemma shuffle_plain A (l : list A) : splain (shuffle cfg l).
  Proof. unfold shuffle; t. Qed.
  Hint Resolve equivalence_set_plain composition_concept_plain shuffle_plain : splain.

  Lemma display_joint_plain e l r : splain (display_joint o e l r).
  Proof. unfold display_joint. t. Qed.
  Hint Resolve display_joint_plain : splain.
  Lemma join_plain e l r : splain (join o e l r).
  Proof. unfold join. t. Qed.
  Hint Resolve join_plain : splain.
  Lemma combine_ast_plain e l r : splain (combine_ast cfg snap o e l r).
  Proof. unfold combine_ast. t. Qed.
  Hint Resolve combine_ast_plain : splain.
  Lemma contract_pair_plain e l r :
    splain (contract_pair cfg snap rf o e l r).
  Proof. unfold contract_pair. t. Qed.
  Hint Resolve contract_pair_plain : splain.
  Lemma substitute_plain e t m :
    splain (substitute cfg snap rf o e t m).
  Proof. induction t as [s c k|s c l IHl r IHr fv bv]; cbn [substitute]; t. Qed.
  Hint Resolve substitute_plain : splain.
  Lemma concrete_ast_plain e cc : splain (concrete_ast cfg snap o e cc).
  Proof. unfold concrete_ast. t. Qed.
  Hint Resolve concrete_ast_plain : splain.
  Lemma get_associativity_plain e x :
    splain (get_associativity cfg snap o e x).
  Proof. unfold get_associativity. t. Qed.
  Lemma to_ast_plain e c : splain (to_ast cfg snap rf o e c).
  Proof. unfold to_ast. t. Qed.
  Lemma expand_plain e x : splain (expand cfg snap o e x).
  Proof. unfold expand. t. Qed.
  Lemma normal_form_plain e x w : splain (normal_form o e x w).
  Proof. unfold normal_form. t. Qed.
  Lemma recursively_reduce_plain e x : splain (recursively_reduce o e x).
  Proof. unfold recursively_reduce. t. Qed.
  Hint Resolve recursively_reduce_plain : splain.
  Lemma determine_evidence_plain e l r : splain (determine_evidence o e l r).
  Proof. unfold determine_evidence. t. Qed.
  Lemma determine_reduction_truth_plain e l r :
    splain (determine_reduction_truth o e l r).
  Proof. unfold determine_reduction_truth. t. Qed.
  Hint Resolve determine_reduction_truth_plain : splain.
  Lemma compare_one_plain e h x : splain (compare_one cfg snap o e h x).
  Proof. unfold compare_one. t. Qed.
  Hint Resolve compare_one_plain : splain.
  Lemma compare_plain e a b : splain (Search.compare cfg snap o e a b).
  Proof. unfold Search.compare. t. Qed.
  Hint Resolve compare_plain : splain.
  Lemma right_branch_plain e l rl rr :
    splain (reduce_by_expanded_right_branch cfg snap o e l rl rr).
  Proof. unfold reduce_by_expanded_right_branch. t. Qed.
  Hint Resolve right_branch_plain : splain.
  Lemma find_example_plain e g ts : splain (find_example o e g ts).
  Proof. unfold find_example. t. Qed.
  Hint Resolve find_example_plain : splain.
  Lemma half_generalisation_plain e g n eqs h :
    splain (half_generalisation cfg snap o e g n eqs h).
  Proof. unfold half_generalisation. t. Qed.
  Hint Resolve half_generalisation_plain : splain.
  Lemma example_of_both_plain e l r el er :
    splain (example_of_both cfg snap rf o e l r el er).
  Proof. unfold example_of_both. t. Qed.
  Hint Resolve example_of_both_plain : splain.
  Lemma branched_examples_plain R e l r eqs (k : ex_subs -> SM (option R)) :
    (forall x, splain (k x)) ->
    splain (branched_examples cfg snap rf o e l r eqs k).
  Proof. intros K. unfold branched_examples. t. Qed.
  Lemma find_examples_plain R e g eqs (k : ex_subs -> SM (option R)) :
    (forall x, splain (k x)) -> splain (find_examples cfg snap rf o e g eqs k).
  Proof. intros K. unfold find_examples. pose proof branched_examples_plain. t. Qed.
  Lemma inferred_plain e x :
    splain (find_examples_of_inferred_reduction cfg snap rf o e x).
  Proof. unfold find_examples_of_inferred_reduction. t. Qed.
  Hint Resolve inferred_plain : splain.
  Lemma infer_reduction_plain e m :
    splain (infer_reduction cfg snap rf o e m).
  Proof. unfold infer_reduction. t. Qed.
  Hint Resolve infer_reduction_plain : splain.
  Lemma reduce_concept_plain e c :
    splain (reduce_concept cfg snap rf o e c).
  Proof. unfold reduce_concept. t. Qed.
  Hint Resolve reduce_concept_plain : splain.
  Lemma left_branch_plain e ll lr r :
    splain (reduce_by_expanded_left_branch cfg snap o e ll lr r).
  Proof. unfold reduce_by_expanded_left_branch. t. Qed.
  Hint Resolve left_branch_plain : splain.
  Lemma try_rule_plain e h x g : splain (try_rule cfg snap rf o e h x g).
  Proof. unfold try_rule. t. Qed.
  Hint Resolve try_rule_plain : splain.
  Lemma recursively_reduce_pair_plain e l r :
    splain (recursively_reduce_pair cfg snap rf o e l r).
  Proof. unfold recursively_reduce_pair. t. Qed.
  Hint Resolve recursively_reduce_pair_plain : splain.
  Lemma reduce_pair_plain e l r :
    splain (reduce_pair cfg snap rf o e l r).
  Proof. unfold reduce_pair. t. Qed.
  Hint Resolve reduce_pair_plain : splain.
  Lemma reduce_plain e x : splain (reduce cfg snap rf o e x).
  Proof. unfold reduce. t. Qed.
  Lemma step_plain_ops : ops_plain (step cfg snap rf o).
  Proof.
    constructor; intros; cbn [step o_reduce o_to_ast o_assoc o_expand o_nf o_evidence o_examples].
    - apply reduce_plain.
    - apply to_ast_plain.
    - apply get_associativity_plain.
    - apply expand_plain.
    - apply normal_form_plain.
    - apply determine_evidence_plain.
    - apply find_examples_plain. assumption.
  Qed.
End Steps.
Lemma search_plain cfg snap rf n : ops_plain (search cfg snap rf n).
Proof.
  induction n as [|n IH]; cbn [search]; [constructor; intros; intros ? ? E; discriminate E|].
  apply step_plain_ops. exact IH.
Qed.
