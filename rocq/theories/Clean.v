(** Looking things up never ends in an error that would be reported to the user: a search gives a result,
    panics or runs out of fuel. *)
From Verif Require Import Snapshot Search Context StoreFacts MapFacts AstFacts Lexer RangeFacts Asking.
From Coq Require Import List.
Import ListNotations.
Local Open Scope zia_scope.

Definition sclean {A} (m : SM A) : Prop := forall s, clean (m s).
Lemma clean_Ok {A} (a : A) : clean (Ok a).
Proof. intros e E. discriminate. Qed.
Lemma sclean_ret {A} (a : A) : sclean (sret a).
Proof. intros s. apply clean_Ok. Qed.
Lemma sclean_bind A B (m : SM A) (f : A -> SM B) : sclean m -> (forall a, sclean (f a)) -> sclean (sbind m f).
Proof. intros H K s. unfold sbind. apply clean_bind; [apply H|]. intros [a s']. apply K. Qed.
Lemma sclean_lift A (x : outcome A) : clean x -> sclean (slift x).
Proof. intros H s. unfold slift. apply clean_bind; [exact H|]. intros a. apply clean_Ok. Qed.
Lemma sclean_smap A B (f : A -> B) (m : SM A) : sclean m -> sclean (smap f m).
Proof. intros H. unfold smap. apply sclean_bind; [exact H|]. intros a. apply sclean_ret. Qed.
Lemma sclean_and_then A B (m : SM (option A)) (f : A -> SM (option B)) :
  sclean m -> (forall a, sclean (f a)) -> sclean (and_then m f).
Proof. intros H K. unfold and_then. apply sclean_bind; [exact H|]. intros [a|]; [apply K|apply sclean_ret]. Qed.
Lemma sclean_or_else A (m n : SM (option A)) : sclean m -> sclean n -> sclean (or_else m n).
Proof. intros H K. unfold or_else. apply sclean_bind; [exact H|]. intros [a|]; [apply sclean_ret|exact K]. Qed.
Lemma sclean_opt_then A B (o : option A) (f : A -> SM (option B)) :
  (forall a, sclean (f a)) -> sclean (opt_then o f).
Proof. intros K. destruct o; [apply K|apply sclean_ret]. Qed.
Lemma sclean_find_map A B (f : A -> SM (option B)) l : (forall a, sclean (f a)) -> sclean (find_map f l).
Proof.
  intros K. induction l as [|a l IH]; cbn [find_map]; [apply sclean_ret|].
  apply sclean_or_else; [apply K|exact IH].
Qed.
Lemma sclean_fuel A : sclean (out_of_fuel : SM A).
Proof. intros s e E. discriminate. Qed.
Create HintDb sclean.
#[export] Hint Constants Opaque : sclean.
#[export] Hint Resolve sclean_ret : sclean.

Lemma clean_type cfg snap d c : clean (concrete_concept_type cfg snap d c).
Proof. unfold concrete_concept_type. cl. apply clean_read. Qed.
Lemma clean_syntax cfg snap d t c : clean (bind_concept_to_syntax cfg snap d t c).
Proof. unfold bind_concept_to_syntax, bind_quantifier. cl. apply clean_type. Qed.
Lemma clean_panic {A} p : clean (Panic p : outcome A).
Proof. intros e E. discriminate. Qed.
Lemma clean_oand a b : clean a -> clean b -> clean (oand a b).
Proof. intros H K. unfold oand. apply clean_bind; [exact H|]. intros []; [exact K|apply clean_Ok]. Qed.
Fixpoint clean_reason (a : reason) : forall b, clean (reason_eq a b)
with clean_creason (a : comparison_reason) : forall b, clean (creason_eq a b).
Proof.
  - destruct a; intros b; cbn [reason_eq]; destruct b;
      first [apply clean_Ok | apply clean_panic | apply clean_creason | idtac].
    + match goal with |- clean (if ?x then _ else _) => destruct x; [apply clean_reason|apply clean_Ok] end.
    + match goal with |- clean (if ?x then _ else _) => destruct x; [apply clean_reason|apply clean_Ok] end.
    + match goal with |- clean (if ?x then _ else _) => destruct x; [|apply clean_Ok] end.
      induction p as [|[k [t1 r1]] p IH]; [apply clean_Ok|].
      destruct (aget key_eqb k p0) as [[t2 r2]|]; [|apply clean_Ok].
      destruct (key_eqb (t_key t1) (t_key t2)); [|apply clean_Ok].
      apply clean_oand; [apply clean_reason|exact IH].
    + match goal with |- clean (if ?x then _ else _) => destruct x; [|apply clean_Ok] end.
      apply clean_oand; apply clean_reason.
    + apply clean_oand; [apply clean_reason|apply clean_Ok].
  - destruct a as [|r1 r2|]; intros b; cbn [creason_eq]; destruct b as [|q1 q2|]; try apply clean_Ok.
    apply clean_oand.
    + destruct r1 as [r1|], q1 as [q1|]; try apply clean_Ok. apply clean_reason.
    + destruct r2 as [r2|], q2 as [q2|]; try apply clean_Ok. apply clean_reason.
Defined.
Lemma clean_oreason a b : clean (oreason_eq a b).
Proof. destruct a, b; try apply clean_Ok. apply clean_reason. Qed.
Lemma clean_simplify r rr : clean (simplify_reasoning r rr).
Proof.
  unfold simplify_reasoning. cbv zeta.
  repeat match goal with
  | |- clean (obind _ _) => apply clean_bind; [apply clean_oreason|intros ?]
  | |- clean (Ok _) => apply clean_Ok
  | |- clean (match ?x with _ => _ end) => destruct x
  end.
Qed.
Lemma clean_insert_new nd d : clean (delta_insert_new nd d).
Proof.
  destruct d as [l i]. unfold delta_insert_new, insert_new, insert_delta. cbv zeta.
  apply clean_bind; [|intros []; apply clean_Ok]. apply clean_bind; [|intros ?; apply clean_Ok].
  repeat match goal with
  | |- clean (Ok _) => apply clean_Ok
  | |- clean (Panic _) => apply clean_panic
  | |- clean (match ?x with _ => _ end) => destruct x
  end.
Qed.
Ltac cleaned := first
  [apply clean_Ok | apply clean_read | apply clean_concrete_id | apply clean_type | apply clean_syntax | apply clean_label
  | apply clean_simplify | apply clean_insert_new | solve [cl]].

Record ops_clean (o : ops) : Prop := {
  oc_reduce : forall e t, sclean (o_reduce o e t);
  oc_to_ast : forall e c, sclean (o_to_ast o e c);
  oc_assoc : forall e t, sclean (o_assoc o e t);
  oc_expand : forall e t, sclean (o_expand o e t);
  oc_nf : forall e t w, sclean (o_nf o e t w);
  oc_evidence : forall e l r, sclean (o_evidence o e l r);
  oc_examples : forall R e g eqs (k : ex_subs -> SM (option R)),
      (forall x, sclean (k x)) -> sclean (o_examples o e g eqs k)
}.
#[export] Hint Resolve oc_reduce oc_to_ast oc_assoc oc_expand oc_nf oc_evidence : sclean.

Ltac primitive :=
  (intros ?s ?e;
   unfold fresh_tick, new_red_cache, new_syn_cache, cached_reduction, insert_reduction, cached_syntax,
     insert_syntax, cached_inference; discriminate).
Ltac step_clean :=
  match goal with
  | |- sclean (sbind _ _) => apply sclean_bind; [|intros ?]
  | |- sclean (slift _) => apply sclean_lift; cleaned
  | |- sclean (smap _ _) => apply sclean_smap
  | |- sclean (and_then _ _) => apply sclean_and_then; [|intros ?]
  | |- sclean (or_else _ _) => apply sclean_or_else
  | |- sclean (opt_then _ _) => apply sclean_opt_then; intros ?
  | |- sclean (find_map _ _) => apply sclean_find_map; intros ?
  | |- sclean (spawn _ _ _) => unfold spawn
  | H : ops_clean ?o |- sclean (o_examples ?o _ _ _ _) => apply (oc_examples _ H); intros ?
  | |- sclean (match ?x with _ => _ end) => destruct x
  | |- sclean _ => solve [eauto 2 with sclean]
  | |- sclean _ => solve [primitive]
  | |- sclean _ => progress cbv zeta
  end.

Section Steps.
  Variables (cfg : config) (snap : snapshot) (rf : nat) (o : ops).
  Hypothesis O : ops_clean o.
  Hint Resolve O : sclean.
  Ltac t := repeat step_clean.
  Lemma read_clean e c : sclean (read cfg snap e c).
  Proof. unfold read. t. Qed.
  Lemma concrete_id_clean e c : sclean (concrete_id cfg snap e c).
  Proof. unfold concrete_id. t. Qed.
  Lemma concrete_type_clean e c : sclean (concrete_type cfg snap e c).
  Proof. unfold concrete_type. t. Qed.
  Hint Resolve read_clean concrete_id_clean concrete_type_clean : sclean.
  Lemma concrete_type_of_ast_clean e x :
    sclean (concrete_type_of_ast cfg snap e x).
  Proof. unfold concrete_type_of_ast. t. Qed.
  Lemma is_concrete_type_clean e cc x :
    sclean (is_concrete_type cfg snap e cc x).
  Proof. unfold is_concrete_type. t. Qed.
  Lemma composition_of_concept_clean e x :
    sclean (composition_of_concept cfg snap e x).
  Proof. unfold composition_of_concept. t. Qed.
  Lemma is_free_variable_clean e x :
    sclean (is_free_variable cfg snap e x).
  Proof. unfold is_free_variable. t. Qed.
  Hint Resolve concrete_type_of_ast_clean is_concrete_type_clean composition_of_concept_clean is_free_variable_clean : sclean.
  Lemma is_leaf_variable_concept_clean e x :
    sclean (is_leaf_variable_concept cfg snap e x).
  Proof. unfold is_leaf_variable_concept. t. Qed.
  Lemma contains_bound_clean e x :
    sclean (contains_bound_variable_syntax cfg snap e x).
  Proof. induction x as [s c k|s c l IHl r IHr fv bv]; cbn [contains_bound_variable_syntax]; t. Qed.
  Hint Resolve is_leaf_variable_concept_clean contains_bound_clean : sclean.
  Lemma check_generalisation_clean e x : forall g,
    sclean (check_generalisation cfg snap e x g).
  Proof. induction x as [s c k|s c l IHl r IHr fv bv]; intros g; cbn [check_generalisation]; t. Qed.
  Lemma add_compositions_clean e h gs : forall acc,
    sclean (add_compositions cfg snap e h gs acc).
  Proof. induction gs as [|g gs IH]; intros acc; cbn [add_compositions]; t. Qed.
  Hint Resolve check_generalisation_clean add_compositions_clean : sclean.
  Lemma find_generalisations_clean e x :
    sclean (find_generalisations cfg snap e x).
  Proof. induction x as [s c k|s c l IHl r IHr fv bv]; cbn [find_generalisations]; t. Qed.
  Hint Resolve find_generalisations_clean : sclean.
  Lemma equivalence_set_clean e c :
    sclean (equivalence_set cfg snap e c).
  Proof. unfold equivalence_set. t. Qed.
  Lemma composition_concept_clean e l r :
    sclean (composition_concept cfg snap e l r).
  Proof. unfold composition_concept. t. Qed.
  Lemma shuffle_clean A (l : list A) : sclean (shuffle cfg l).
  Proof. unfold shuffle; t. Qed.
  Hint Resolve equivalence_set_clean composition_concept_clean shuffle_clean : sclean.

  Lemma display_joint_clean e l r : sclean (display_joint o e l r).
  Proof. unfold display_joint. t. Qed.
  Hint Resolve display_joint_clean : sclean.
  Lemma join_clean e l r : sclean (join o e l r).
  Proof. unfold join. t. Qed.
  Hint Resolve join_clean : sclean.
  Lemma combine_ast_clean e l r : sclean (combine_ast cfg snap o e l r).
  Proof. unfold combine_ast. t. Qed.
  Hint Resolve combine_ast_clean : sclean.
  Lemma contract_pair_clean e l r :
    sclean (contract_pair cfg snap rf o e l r).
  Proof. unfold contract_pair. t. Qed.
  Hint Resolve contract_pair_clean : sclean.
  Lemma substitute_clean e t m :
    sclean (substitute cfg snap rf o e t m).
  Proof. induction t as [s c k|s c l IHl r IHr fv bv]; cbn [substitute]; t. Qed.
  Hint Resolve substitute_clean : sclean.
  Lemma concrete_ast_clean e cc : sclean (concrete_ast cfg snap o e cc).
  Proof. unfold concrete_ast. t. Qed.
  Hint Resolve concrete_ast_clean : sclean.
  Lemma get_associativity_clean e x :
    sclean (get_associativity cfg snap o e x).
  Proof. unfold get_associativity. t. Qed.
  Lemma to_ast_clean e c : sclean (to_ast cfg snap rf o e c).
  Proof. unfold to_ast. t. Qed.
  Lemma expand_clean e x : sclean (expand cfg snap o e x).
  Proof. unfold expand. t. Qed.
  Lemma normal_form_clean e x w : sclean (normal_form o e x w).
  Proof. unfold normal_form. t. Qed.
  Lemma recursively_reduce_clean e x : sclean (recursively_reduce o e x).
  Proof. unfold recursively_reduce. t. Qed.
  Hint Resolve recursively_reduce_clean : sclean.
  Lemma determine_evidence_clean e l r : sclean (determine_evidence o e l r).
  Proof. unfold determine_evidence. t. Qed.
  Lemma determine_reduction_truth_clean e l r :
    sclean (determine_reduction_truth o e l r).
  Proof. unfold determine_reduction_truth. t. Qed.
  Hint Resolve determine_reduction_truth_clean : sclean.
  Lemma compare_one_clean e h x : sclean (compare_one cfg snap o e h x).
  Proof. unfold compare_one. t. Qed.
  Hint Resolve compare_one_clean : sclean.
  Lemma compare_clean e a b : sclean (Search.compare cfg snap o e a b).
  Proof. unfold Search.compare. t. Qed.
  Hint Resolve compare_clean : sclean.
  Lemma right_branch_clean e l rl rr :
    sclean (reduce_by_expanded_right_branch cfg snap o e l rl rr).
  Proof. unfold reduce_by_expanded_right_branch. t. Qed.
  Hint Resolve right_branch_clean : sclean.
  Lemma find_example_clean e g ts : sclean (find_example o e g ts).
  Proof. unfold find_example. t. Qed.
  Hint Resolve find_example_clean : sclean.
  Lemma half_generalisation_clean e g n eqs h :
    sclean (half_generalisation cfg snap o e g n eqs h).
  Proof. unfold half_generalisation. t. Qed.
  Hint Resolve half_generalisation_clean : sclean.
  Lemma example_of_both_clean e l r el er :
    sclean (example_of_both cfg snap rf o e l r el er).
  Proof. unfold example_of_both. t. Qed.
  Hint Resolve example_of_both_clean : sclean.
  Lemma branched_examples_clean R e l r eqs (k : ex_subs -> SM (option R)) :
    (forall x, sclean (k x)) ->
    sclean (branched_examples cfg snap rf o e l r eqs k).
  Proof. intros K. unfold branched_examples. t. Qed.
  Lemma find_examples_clean R e g eqs (k : ex_subs -> SM (option R)) :
    (forall x, sclean (k x)) -> sclean (find_examples cfg snap rf o e g eqs k).
  Proof. intros K. unfold find_examples. pose proof branched_examples_clean. t. Qed.
  Lemma inferred_clean e x :
    sclean (find_examples_of_inferred_reduction cfg snap rf o e x).
  Proof. unfold find_examples_of_inferred_reduction. t. Qed.
  Hint Resolve inferred_clean : sclean.
  Lemma infer_reduction_clean e m :
    sclean (infer_reduction cfg snap rf o e m).
  Proof. unfold infer_reduction. t. Qed.
  Hint Resolve infer_reduction_clean : sclean.
  Lemma reduce_concept_clean e c :
    sclean (reduce_concept cfg snap rf o e c).
  Proof. unfold reduce_concept. t. Qed.
  Hint Resolve reduce_concept_clean : sclean.
  Lemma left_branch_clean e ll lr r :
    sclean (reduce_by_expanded_left_branch cfg snap o e ll lr r).
  Proof. unfold reduce_by_expanded_left_branch. t. Qed.
  Hint Resolve left_branch_clean : sclean.
  Lemma try_rule_clean e h x g : sclean (try_rule cfg snap rf o e h x g).
  Proof. unfold try_rule. t. Qed.
  Hint Resolve try_rule_clean : sclean.
  Lemma recursively_reduce_pair_clean e l r :
    sclean (recursively_reduce_pair cfg snap rf o e l r).
  Proof. unfold recursively_reduce_pair. t. Qed.
  Hint Resolve recursively_reduce_pair_clean : sclean.
  Lemma reduce_pair_clean e l r :
    sclean (reduce_pair cfg snap rf o e l r).
  Proof. unfold reduce_pair. t. Qed.
  Hint Resolve reduce_pair_clean : sclean.
  Lemma reduce_clean e x : sclean (reduce cfg snap rf o e x).
  Proof. unfold reduce. t. Qed.
  Lemma step_clean_ops : ops_clean (step cfg snap rf o).
  Proof.
    constructor; intros; cbn [step o_reduce o_to_ast o_assoc o_expand o_nf o_evidence o_examples].
    - apply reduce_clean.
    - apply to_ast_clean.
    - apply get_associativity_clean.
    - apply expand_clean.
    - apply normal_form_clean.
    - apply determine_evidence_clean.
    - apply find_examples_clean. assumption.
  Qed.
End Steps.
Lemma search_clean cfg snap rf n : ops_clean (search cfg snap rf n).
Proof.
  induction n as [|n IH]; cbn [search]; [constructor; intros; cbn in *; first [discriminate|apply sclean_fuel]|].
  apply step_clean_ops. exact IH.
Qed.
