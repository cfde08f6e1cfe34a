(** The bound on the depth of recursion only decides whether an answer is found: a larger
    bound gives the same answer. *)
From Verif Require Import Context.
From Coq Require Import String List Lia.
Import ListNotations.
Set Implicit Arguments.

Definition below {A} (x y : outcome A) : Prop := x = OutOfFuel \/ x = y.
Lemma below_refl A (x : outcome A) : below x x.
Proof. right. reflexivity. Qed.
Lemma below_out A (y : outcome A) : below OutOfFuel y.
Proof. left. reflexivity. Qed.
Lemma below_obind A B (x y : outcome A) (f g : A -> outcome B) :
  below x y -> (forall a, below (f a) (g a)) -> below (obind x f) (obind y g).
Proof.
  intros [->| ->] H; [left; reflexivity|]. destruct y; cbn [obind]; [apply H|right; reflexivity..].
Qed.
Lemma below_omap A B (f : A -> B) (x y : outcome A) : below x y -> below (omap f x) (omap f y).
Proof. intros H. apply below_obind; [exact H|]. intros a. apply below_refl. Qed.
#[export] Hint Resolve below_refl below_out below_obind below_omap : mono.

(** One step of the walk over two functions that differ in the bound. *)
Ltac mstep :=
  first
  [ solve [eauto 2 with mono]
  | match goal with
    | |- below (obind _ _) (obind _ _) => apply below_obind; [|intros ?]
    | |- below (omap _ _) (omap _ _) => apply below_omap
    | |- below (match ?x with _ => _ end) (match ?x with _ => _ end) => destruct x
    | |- below (if ?x then _ else _) (if ?x then _ else _) => destruct x
    end ].
Ltac mono := repeat mstep.

Section Readers.
  Variables (cfg : config) (snap : snapshot) (d : delta).
  Lemma labellee_loop_mono n m cs :
    le n m -> below (labellee_loop cfg snap d n cs) (labellee_loop cfg snap d m cs).
  Proof.
    revert m cs. induction n as [|n IH]; intros [|m] [|c cs] L; cbn [labellee_loop]; mono; try lia.
    apply IH. lia.
  Qed.
  Lemma get_labellee_mono n m c :
    le n m -> below (get_labellee cfg snap d n c) (get_labellee cfg snap d m c).
  Proof. intros L. unfold get_labellee. mono. apply labellee_loop_mono. exact L. Qed.
  Lemma concept_from_label_mono n m s :
    le n m -> below (concept_from_label cfg snap d n s) (concept_from_label cfg snap d m s).
  Proof. intros L. unfold concept_from_label. mono. apply get_labellee_mono. exact L. Qed.
  Lemma get_normal_form_mono n m c :
    le n m -> below (get_normal_form cfg snap d n c) (get_normal_form cfg snap d m c).
  Proof.
    revert m c. induction n as [|n IH]; intros [|m] c L; cbn [get_normal_form]; mono; try lia.
    apply IH. lia.
  Qed.
  Lemma get_label_mono n m c :
    le n m -> below (get_label cfg snap d n c) (get_label cfg snap d m c).
  Proof.
    revert m c. induction n as [|n IH]; intros [|m] c L; cbn [get_label]; mono; try lia.
    - apply get_normal_form_mono. lia.
    - apply IH. lia.
  Qed.
  Lemma get_reduction_of_composition_mono n m c :
    le n m -> below (get_reduction_of_composition cfg snap d n c)
                    (get_reduction_of_composition cfg snap d m c).
  Proof.
    revert m c. induction n as [|n IH]; intros [|m] c L; cbn [get_reduction_of_composition]; mono;
      try lia; apply IH; lia.
  Qed.
  Lemma contains_mono n m o i :
    le n m -> below (contains cfg snap d n o i) (contains cfg snap d m o i).
  Proof.
    revert m o i. induction n as [|n IH]; intros [|m] o i L; cbn [contains]; mono; try lia; apply IH; lia.
  Qed.
  Lemma check_reductions_mono n m o i :
    le n m -> below (check_reductions cfg snap d n o i) (check_reductions cfg snap d m o i).
  Proof.
    revert m o i. induction n as [|n IH]; intros [|m] o i L; cbn [check_reductions]; mono; try lia.
    - apply contains_mono. lia.
    - apply IH. lia.
  Qed.
End Readers.

(** ** Searches *)
Definition sbelow {A} (m1 m2 : SM A) : Prop := forall s, below (m1 s) (m2 s).
Lemma sbelow_refl A (m : SM A) : sbelow m m.
Proof. intros s. apply below_refl. Qed.
Lemma sbelow_out A (m : SM A) : sbelow out_of_fuel m.
Proof. intros s. apply below_out. Qed.
Lemma sbelow_bind A B (m1 m2 : SM A) (f g : A -> SM B) :
  sbelow m1 m2 -> (forall a, sbelow (f a) (g a)) -> sbelow (sbind m1 f) (sbind m2 g).
Proof. intros H K s. unfold sbind. apply below_obind; [apply H|]. intros [a s']. apply K. Qed.
Lemma sbelow_lift A (x y : outcome A) : below x y -> sbelow (slift x) (slift y).
Proof. intros H s. unfold slift. apply below_obind; [exact H|]. intros a. apply below_refl. Qed.
Lemma sbelow_smap A B (f : A -> B) (m1 m2 : SM A) : sbelow m1 m2 -> sbelow (smap f m1) (smap f m2).
Proof. intros H. unfold smap. apply sbelow_bind; [exact H|]. intros a. apply sbelow_refl. Qed.
Lemma sbelow_and_then A B (m1 m2 : SM (option A)) (f g : A -> SM (option B)) :
  sbelow m1 m2 -> (forall a, sbelow (f a) (g a)) -> sbelow (and_then m1 f) (and_then m2 g).
Proof.
  intros H K. unfold and_then. apply sbelow_bind; [exact H|]. intros [a|]; [apply K|apply sbelow_refl].
Qed.
Lemma sbelow_or_else A (m1 m2 n1 n2 : SM (option A)) :
  sbelow m1 m2 -> sbelow n1 n2 -> sbelow (or_else m1 n1) (or_else m2 n2).
Proof.
  intros H K. unfold or_else. apply sbelow_bind; [exact H|]. intros [a|]; [apply sbelow_refl|exact K].
Qed.
Lemma sbelow_opt_then A B (o : option A) (f g : A -> SM (option B)) :
  (forall a, sbelow (f a) (g a)) -> sbelow (opt_then o f) (opt_then o g).
Proof. intros K. destruct o; [apply K|apply sbelow_refl]. Qed.
Lemma sbelow_find_map A B (f g : A -> SM (option B)) l :
  (forall a, sbelow (f a) (g a)) -> sbelow (find_map f l) (find_map g l).
Proof.
  intros K. induction l as [|a l IH]; cbn [find_map]; [apply sbelow_refl|].
  apply sbelow_or_else; [apply K|exact IH].
Qed.
Create HintDb smono.
#[export] Hint Constants Opaque : smono.
#[export] Hint Resolve sbelow_refl sbelow_out : smono.

Ltac sstep :=
  match goal with
  | |- sbelow (sbind _ _) (sbind _ _) => apply sbelow_bind; [|intros ?]
  | |- sbelow (slift _) (slift _) => apply sbelow_lift
  | |- sbelow (smap _ _) (smap _ _) => apply sbelow_smap
  | |- sbelow (and_then _ _) (and_then _ _) => apply sbelow_and_then; [|intros ?]
  | |- sbelow (or_else _ _) (or_else _ _) => apply sbelow_or_else
  | |- sbelow (opt_then _ _) (opt_then _ _) => apply sbelow_opt_then; intros ?
  | |- sbelow (find_map _ _) (find_map _ _) => apply sbelow_find_map; intros ?
  | |- sbelow (match ?x with _ => _ end) (match ?x with _ => _ end) => destruct x
  | |- sbelow (if ?x then _ else _) (if ?x then _ else _) => destruct x
  | |- sbelow _ _ => solve [eauto 2 with smono]
  | |- sbelow _ _ => progress cbv zeta
  | |- below ?x ?x => apply below_refl
  end.
Ltac smono := repeat sstep.

Record ops_below (o1 o2 : ops) : Prop := {
  ob_reduce : forall e t, sbelow (o_reduce o1 e t) (o_reduce o2 e t);
  ob_to_ast : forall e c, sbelow (o_to_ast o1 e c) (o_to_ast o2 e c);
  ob_assoc : forall e t, sbelow (o_assoc o1 e t) (o_assoc o2 e t);
  ob_expand : forall e t, sbelow (o_expand o1 e t) (o_expand o2 e t);
  ob_nf : forall e t w, sbelow (o_nf o1 e t w) (o_nf o2 e t w);
  ob_evidence : forall e l r, sbelow (o_evidence o1 e l r) (o_evidence o2 e l r);
  ob_examples : forall R e g eqs (k1 k2 : ex_subs -> SM (option R)),
      (forall x, sbelow (k1 x) (k2 x)) ->
      sbelow (o_examples o1 e g eqs k1) (o_examples o2 e g eqs k2)
}.
#[export] Hint Resolve ob_reduce ob_to_ast ob_assoc ob_expand ob_nf ob_evidence : smono.

Section Steps.
  Variables (cfg : config) (snap : snapshot) (rf1 rf2 : nat) (o1 o2 : ops).
  Hypothesis L : le rf1 rf2.
  Hypothesis O : ops_below o1 o2.
  Hint Resolve O : smono.
  Ltac t := repeat sstep; try (apply get_label_mono; exact L).
  Ltac ex := match goal with |- sbelow (o_examples _ _ _ _ _) (o_examples _ _ _ _ _) =>
               apply (ob_examples O); intros ? end.

  Lemma display_joint_mono e l r : sbelow (display_joint o1 e l r) (display_joint o2 e l r).
  Proof. unfold display_joint. t. Qed.
  Hint Resolve display_joint_mono : smono.
  Lemma join_mono e l r : sbelow (join o1 e l r) (join o2 e l r).
  Proof. unfold join. t. Qed.
  Hint Resolve join_mono : smono.
  Lemma combine_ast_mono e l r : sbelow (combine_ast cfg snap o1 e l r) (combine_ast cfg snap o2 e l r).
  Proof. unfold combine_ast. t. Qed.
  Hint Resolve combine_ast_mono : smono.
  Lemma contract_pair_mono e l r :
    sbelow (contract_pair cfg snap rf1 o1 e l r) (contract_pair cfg snap rf2 o2 e l r).
  Proof. unfold contract_pair. t. Qed.
  Hint Resolve contract_pair_mono : smono.
  Lemma substitute_mono e t m :
    sbelow (substitute cfg snap rf1 o1 e t m) (substitute cfg snap rf2 o2 e t m).
  Proof. induction t as [s c k|s c l IHl r IHr fv bv]; cbn [substitute]; t. Qed.
  Hint Resolve substitute_mono : smono.
  Lemma concrete_ast_mono e cc : sbelow (concrete_ast cfg snap o1 e cc) (concrete_ast cfg snap o2 e cc).
  Proof. unfold concrete_ast. t. Qed.
  Hint Resolve concrete_ast_mono : smono.
  Lemma get_associativity_mono e x :
    sbelow (get_associativity cfg snap o1 e x) (get_associativity cfg snap o2 e x).
  Proof. unfold get_associativity. t. Qed.
  Lemma to_ast_mono e c : sbelow (to_ast cfg snap rf1 o1 e c) (to_ast cfg snap rf2 o2 e c).
  Proof. unfold to_ast. t. Qed.
  Lemma expand_mono e x : sbelow (expand cfg snap o1 e x) (expand cfg snap o2 e x).
  Proof. unfold expand. t. Qed.
  Lemma normal_form_mono e x w : sbelow (normal_form o1 e x w) (normal_form o2 e x w).
  Proof. unfold normal_form. t. Qed.
  Lemma recursively_reduce_mono e x : sbelow (recursively_reduce o1 e x) (recursively_reduce o2 e x).
  Proof. unfold recursively_reduce. t. Qed.
  Hint Resolve recursively_reduce_mono : smono.
  Lemma determine_evidence_mono e l r : sbelow (determine_evidence o1 e l r) (determine_evidence o2 e l r).
  Proof. unfold determine_evidence. t. Qed.
  Lemma determine_reduction_truth_mono e l r :
    sbelow (determine_reduction_truth o1 e l r) (determine_reduction_truth o2 e l r).
  Proof. unfold determine_reduction_truth. t. Qed.
  Hint Resolve determine_reduction_truth_mono : smono.
  Lemma compare_one_mono e h x : sbelow (compare_one cfg snap o1 e h x) (compare_one cfg snap o2 e h x).
  Proof. unfold compare_one. t. Qed.
  Hint Resolve compare_one_mono : smono.
  Lemma compare_mono e a b : sbelow (Search.compare cfg snap o1 e a b) (Search.compare cfg snap o2 e a b).
  Proof. unfold Search.compare. t. Qed.
  Hint Resolve compare_mono : smono.
  Lemma right_branch_mono e l rl rr :
    sbelow (reduce_by_expanded_right_branch cfg snap o1 e l rl rr)
           (reduce_by_expanded_right_branch cfg snap o2 e l rl rr).
  Proof. unfold reduce_by_expanded_right_branch. t. Qed.
  Hint Resolve right_branch_mono : smono.
  Lemma find_example_mono e g ts : sbelow (find_example o1 e g ts) (find_example o2 e g ts).
  Proof. unfold find_example. ex. t. Qed.
  Hint Resolve find_example_mono : smono.
  Lemma half_generalisation_mono e g n eqs h :
    sbelow (half_generalisation cfg snap o1 e g n eqs h) (half_generalisation cfg snap o2 e g n eqs h).
  Proof. unfold half_generalisation. t. Qed.
  Hint Resolve half_generalisation_mono : smono.
  Lemma example_of_both_mono e l r el er :
    sbelow (example_of_both cfg snap rf1 o1 e l r el er) (example_of_both cfg snap rf2 o2 e l r el er).
  Proof. unfold example_of_both. t. ex. t. ex. t. Qed.
  Hint Resolve example_of_both_mono : smono.
  Lemma branched_examples_mono R e l r eqs (k1 k2 : ex_subs -> SM (option R)) :
    (forall x, sbelow (k1 x) (k2 x)) ->
    sbelow (branched_examples cfg snap rf1 o1 e l r eqs k1) (branched_examples cfg snap rf2 o2 e l r eqs k2).
  Proof. intros K. unfold branched_examples. t. Qed.
  Lemma find_examples_mono R e g eqs (k1 k2 : ex_subs -> SM (option R)) :
    (forall x, sbelow (k1 x) (k2 x)) ->
    sbelow (find_examples cfg snap rf1 o1 e g eqs k1) (find_examples cfg snap rf2 o2 e g eqs k2).
  Proof. intros K. unfold find_examples. pose proof branched_examples_mono. t. Qed.
  Lemma inferred_mono e x :
    sbelow (find_examples_of_inferred_reduction cfg snap rf1 o1 e x)
           (find_examples_of_inferred_reduction cfg snap rf2 o2 e x).
  Proof. unfold find_examples_of_inferred_reduction. t. ex. t. Qed.
  Hint Resolve inferred_mono : smono.
  Lemma infer_reduction_mono e m :
    sbelow (infer_reduction cfg snap rf1 o1 e m) (infer_reduction cfg snap rf2 o2 e m).
  Proof. unfold infer_reduction. t. Qed.
  Hint Resolve infer_reduction_mono : smono.
  Lemma reduce_concept_mono e c :
    sbelow (reduce_concept cfg snap rf1 o1 e c) (reduce_concept cfg snap rf2 o2 e c).
  Proof. unfold reduce_concept. t. Qed.
  Hint Resolve reduce_concept_mono : smono.
  Lemma left_branch_mono e ll lr r :
    sbelow (reduce_by_expanded_left_branch cfg snap o1 e ll lr r)
           (reduce_by_expanded_left_branch cfg snap o2 e ll lr r).
  Proof. unfold reduce_by_expanded_left_branch. t. Qed.
  Hint Resolve left_branch_mono : smono.
  Lemma try_rule_mono e h x g : sbelow (try_rule cfg snap rf1 o1 e h x g) (try_rule cfg snap rf2 o2 e h x g).
  Proof. unfold try_rule. t. Qed.
  Hint Resolve try_rule_mono : smono.
  Lemma recursively_reduce_pair_mono e l r :
    sbelow (recursively_reduce_pair cfg snap rf1 o1 e l r) (recursively_reduce_pair cfg snap rf2 o2 e l r).
  Proof. unfold recursively_reduce_pair. t. Qed.
  Hint Resolve recursively_reduce_pair_mono : smono.
  Lemma reduce_pair_mono e l r :
    sbelow (reduce_pair cfg snap rf1 o1 e l r) (reduce_pair cfg snap rf2 o2 e l r).
  Proof. unfold reduce_pair. t. Qed.
  Hint Resolve reduce_pair_mono : smono.
  Lemma reduce_mono e x : sbelow (reduce cfg snap rf1 o1 e x) (reduce cfg snap rf2 o2 e x).
  Proof. unfold reduce. t. Qed.
  Lemma step_mono : ops_below (step cfg snap rf1 o1) (step cfg snap rf2 o2).
  Proof.
    constructor; intros; cbn [step o_reduce o_to_ast o_assoc o_expand o_nf o_evidence o_examples].
    - apply reduce_mono.
    - apply to_ast_mono.
    - apply get_associativity_mono.
    - apply expand_mono.
    - apply normal_form_mono.
    - apply determine_evidence_mono.
    - apply find_examples_mono. assumption.
  Qed.
End Steps.

Lemma bottom_below o : ops_below bottom o.
Proof. constructor; intros; apply sbelow_out. Qed.
Lemma search_mono cfg snap rf1 rf2 n m :
  le rf1 rf2 -> le n m -> ops_below (search cfg snap rf1 n) (search cfg snap rf2 m).
Proof.
  intros L. revert m. induction n as [|n IH]; intros [|m] L'; cbn [search]; try apply bottom_below; [lia|].
  apply step_mono; [exact L|]. apply IH. lia.
Qed.

(** ** Commands *)
Definition cbelow {A} (m1 m2 : CM A) : Prop := forall c, below (m1 c) (m2 c).
Lemma cbelow_refl A (m : CM A) : cbelow m m.
Proof. intros c. apply below_refl. Qed.
Lemma cbelow_bind A B (m1 m2 : CM A) (f g : A -> CM B) :
  cbelow m1 m2 -> (forall a, cbelow (f a) (g a)) -> cbelow (cbind m1 f) (cbind m2 g).
Proof.
  intros H K c. unfold cbind. apply below_obind; [apply H|]. intros [[a|e] c'];
    [apply K|apply below_refl].
Qed.
Lemma cbelow_catch A (m1 m2 : CM A) : cbelow m1 m2 -> cbelow (catch m1) (catch m2).
Proof. intros H c. unfold catch. apply below_obind; [apply H|]. intros [a c']. apply below_refl. Qed.
Lemma cbelow_lift A (f g : ctx -> outcome A) : (forall c, below (f c) (g c)) -> cbelow (clift f) (clift g).
Proof. intros H c. unfold clift. destruct (H c) as [->| ->]; [left|right]; reflexivity. Qed.
Lemma cbelow_irreducible A (m1 m2 n1 n2 : CM A) :
  cbelow m1 m2 -> cbelow n1 n2 -> cbelow (on_irreducible m1 n1) (on_irreducible m2 n2).
Proof.
  intros H K. unfold on_irreducible. apply cbelow_bind; [apply cbelow_catch; exact H|].
  intros [a|[]]; solve [apply cbelow_refl|exact K].
Qed.
Lemma cbelow_pin A (m1 m2 : CM A) : cbelow m1 m2 -> cbelow (with_pin m1) (with_pin m2).
Proof. intros H c. unfold with_pin. apply below_obind; [apply H|]. intros [a c']. apply below_refl. Qed.
Lemma with_search_mono A (f g : env -> SM A) c :
  (forall e, sbelow (f e) (g e)) -> below (with_search f c) (with_search g c).
Proof.
  intros H. unfold with_search.
  destruct (H (new_env (c_delta c) (c_bound c)) (start_state (c_cache c) (c_tick c))) as [->| ->];
    [left|right]; reflexivity.
Qed.
Create HintDb cmono.
#[export] Hint Constants Opaque : cmono.
#[export] Hint Resolve cbelow_refl : cmono.

Ltac cstep :=
  match goal with
  | |- cbelow (cbind _ _) (cbind _ _) => apply cbelow_bind; [|intros ?]
  | |- cbelow (catch _) (catch _) => apply cbelow_catch
  | |- cbelow (clift _) (clift _) => apply cbelow_lift; intros ?
  | |- cbelow (on_irreducible _ _) (on_irreducible _ _) => apply cbelow_irreducible
  | |- cbelow (with_pin _) (with_pin _) => apply cbelow_pin
  | |- cbelow (match ?x with _ => _ end) (match ?x with _ => _ end) => destruct x
  | |- cbelow (if ?x then _ else _) (if ?x then _ else _) => destruct x
  | |- cbelow _ _ => solve [eauto 2 with cmono]
  | |- cbelow _ _ => progress cbv zeta
  | |- below ?x ?x => apply below_refl
  end.

Lemma lex_step_mono k1 k2 st x :
  (forall t, below (k1 t) (k2 t)) -> below (lex_step k1 st x) (lex_step k2 st x).
Proof. intros H. destruct st as [ls stk]. unfold lex_step. mono; apply H. Qed.
Lemma lex_mono k1 k2 s : (forall t, below (k1 t) (k2 t)) -> below (lex k1 s) (lex k2 s).
Proof.
  intros H. unfold lex. apply below_obind; [|intros ?; apply below_refl].
  generalize (@nil lexeme, @nil nat). induction s as [|x s IH]; intros st; cbn [lex_loop]; [apply below_refl|].
  apply below_obind; [apply lex_step_mono; exact H|]. exact IH.
Qed.

Section Commands.
  Variables (cfg : config) (f1 f2 : nat).
  Hypothesis L : le f1 f2.
  Ltac t := repeat cstep;
    try first [ apply concept_from_label_mono; exact L
              | apply get_normal_form_mono; exact L
              | apply get_reduction_of_composition_mono; exact L
              | apply contains_mono; exact L
              | apply check_reductions_mono; exact L
              | apply get_label_mono; exact L ].
  Lemma ops_of_mono c : ops_below (ops_of cfg f1 c) (ops_of cfg f2 c).
  Proof. apply search_mono; exact L. Qed.
  Ltac srch := intros ?c; apply with_search_mono; intros ?e; pose proof (ops_of_mono c) as ?O; smono.
  Hint Resolve combine_ast_mono concrete_ast_mono contract_pair_mono inferred_mono : smono.

  Lemma update_reduction_mono c s r : cbelow (update_reduction cfg f1 c s r) (update_reduction cfg f2 c s r).
  Proof. unfold update_reduction. t. Qed.
  Hint Resolve update_reduction_mono : cmono.
  Lemma label_mono c s s' : cbelow (label cfg f1 c s s') (label cfg f2 c s s').
  Proof. unfold label. t. Qed.
  Hint Resolve label_mono : cmono.
  Lemma relabel_mono c s s' : cbelow (relabel cfg f1 c s s') (relabel cfg f2 c s s').
  Proof. unfold relabel. t. Qed.
  Hint Resolve relabel_mono : cmono.
  Lemma concept_from_ast_mono x : cbelow (concept_from_ast cfg f1 x) (concept_from_ast cfg f2 x).
  Proof. induction x as [s c k|s c l IHl r IHr fv bv]; cbn [concept_from_ast]; t. Qed.
  Hint Resolve concept_from_ast_mono : cmono.
  Lemma insert_composition_mono c l r : cbelow (insert_composition cfg f1 c l r) (insert_composition cfg f2 c l r).
  Proof. unfold insert_composition. t. Qed.
  Hint Resolve insert_composition_mono : cmono.
  Lemma redefine_mono c l r : cbelow (redefine cfg f1 c l r) (redefine cfg f2 c l r).
  Proof. unfold redefine. t. Qed.
  Hint Resolve redefine_mono : cmono.
  Lemma redefine_composition_mono c l r ol or_ :
    cbelow (redefine_composition cfg f1 c l r ol or_) (redefine_composition cfg f2 c l r ol or_).
  Proof. unfold redefine_composition. t. Qed.
  Hint Resolve redefine_composition_mono : cmono.
  Lemma define_new_syntax_mono s l r : cbelow (define_new_syntax cfg f1 s l r) (define_new_syntax cfg f2 s l r).
  Proof. unfold define_new_syntax. t. Qed.
  Hint Resolve define_new_syntax_mono : cmono.

  Lemma c_lex_mono s : cbelow (c_lex cfg f1 s) (c_lex cfg f2 s).
  Proof.
    unfold c_lex. apply cbelow_lift. intros c. apply lex_mono. intros x. unfold kind_of_symbol.
    mono. apply concept_from_label_mono. exact L.
  Qed.
  Lemma c_combine_mono l r : cbelow (c_combine cfg f1 l r) (c_combine cfg f2 l r).
  Proof. unfold c_combine. srch. Qed.
  Lemma c_to_ast_mono id : cbelow (c_to_ast cfg f1 id) (c_to_ast cfg f2 id).
  Proof. unfold c_to_ast. srch. Qed.
  Lemma c_assoc_mono x : cbelow (c_assoc cfg f1 x) (c_assoc cfg f2 x).
  Proof. unfold c_assoc. srch. Qed.
  Lemma c_concrete_ast_mono cc : cbelow (c_concrete_ast cfg f1 cc) (c_concrete_ast cfg f2 cc).
  Proof. unfold c_concrete_ast. srch. Qed.
  Hint Resolve c_lex_mono c_combine_mono c_to_ast_mono c_assoc_mono c_concrete_ast_mono : cmono.
  Lemma ast_from_syntax_leaf_mono k s c :
    cbelow (ast_from_syntax_leaf cfg f1 k s c) (ast_from_syntax_leaf cfg f2 k s c).
  Proof. unfold ast_from_syntax_leaf. t. Qed.
  Lemma ast_from_pair_mono l r : cbelow (ast_from_pair cfg f1 l r) (ast_from_pair cfg f2 l r).
  Proof. unfold ast_from_pair. t. Qed.
  Lemma precedes_mono a b : cbelow (precedes cfg f1 a b) (precedes cfg f2 a b).
  Proof. unfold precedes. apply cbelow_bind; [|intros ?; apply cbelow_refl]. srch. Qed.
  Hint Resolve ast_from_syntax_leaf_mono ast_from_pair_mono precedes_mono : cmono.
  Lemma place_concept_mono c all lowest :
    cbelow (place_concept cfg f1 c all lowest) (place_concept cfg f2 c all lowest).
  Proof. induction lowest as [|l lowest IH]; cbn [place_concept]; t. Qed.
  Hint Resolve place_concept_mono : cmono.
  Lemma lowest_concepts_mono cs : forall lowest,
    cbelow (lowest_concepts cfg f1 cs lowest) (lowest_concepts cfg f2 cs lowest).
  Proof. induction cs as [|c cs IH]; intros lowest; cbn [lowest_concepts]; t. Qed.
  Hint Resolve lowest_concepts_mono : cmono.
  Lemma lowest_precedence_info_mono ts :
    cbelow (lowest_precedence_info cfg f1 ts) (lowest_precedence_info cfg f2 ts).
  Proof. unfold lowest_precedence_info. t. Qed.
  Lemma common_associativity_mono ts : forall a,
    cbelow (common_associativity cfg f1 a ts) (common_associativity cfg f2 a ts).
  Proof. induction ts as [|x ts IH]; intros a; cbn [common_associativity]; t. Qed.
  Hint Resolve lowest_precedence_info_mono common_associativity_mono : cmono.
  Section Lists.
    Variables p1 p2 : list tree -> CM tree.
    Hypothesis P : forall ts, cbelow (p1 ts) (p2 ts).
    Lemma try_fold_handler_mono ts st lp a :
      cbelow (try_fold_handler cfg f1 p1 ts st lp a) (try_fold_handler cfg f2 p2 ts st lp a).
    Proof. unfold try_fold_handler. t. Qed.
    Hint Resolve try_fold_handler_mono : cmono.
    Lemma fold_right_assoc_mono ts lps : forall min tail,
      cbelow (fold_right_assoc cfg f1 p1 ts min tail lps) (fold_right_assoc cfg f2 p2 ts min tail lps).
    Proof. induction lps as [|x lps IH]; intros min tail; cbn [fold_right_assoc]; t. Qed.
    Lemma fold_left_assoc_mono ts lps : forall st,
      cbelow (fold_left_assoc cfg f1 p1 ts st lps) (fold_left_assoc cfg f2 p2 ts st lps).
    Proof. induction lps as [|x lps IH]; intros st; cbn [fold_left_assoc]; t. Qed.
  End Lists.
  Hint Resolve fold_right_assoc_mono fold_left_assoc_mono : cmono.
  Lemma ast_from_syntax_list_mono n : forall ts,
    cbelow (ast_from_syntax_list cfg f1 n ts) (ast_from_syntax_list cfg f2 n ts).
  Proof. induction n as [|n IH]; intros ts; cbn [ast_from_syntax_list]; t. Qed.
  Hint Resolve ast_from_syntax_list_mono : cmono.
  Lemma parse_list_mono ts : cbelow (parse_list cfg f1 ts) (parse_list cfg f2 ts).
  Proof. unfold parse_list. t. Qed.
  Hint Resolve parse_list_mono : cmono.
  Fixpoint ast_from_nested_syntax_mono (n : nested) :
    cbelow (ast_from_nested_syntax cfg f1 n) (ast_from_nested_syntax cfg f2 n).
  Proof.
    destruct n as [k s c|cs s]; cbn [ast_from_nested_syntax]; [t|].
    apply cbelow_bind; [|intros ts; t].
    induction cs as [|x cs IH]; [t|]. t.
  Defined.
  Hint Resolve ast_from_nested_syntax_mono : cmono.
  Lemma syntax_list_mono n :
    cbelow (syntax_list_for_nested_syntax cfg f1 n) (syntax_list_for_nested_syntax cfg f2 n).
  Proof.
    destruct n as [k s c|cs s]; cbn [syntax_list_for_nested_syntax]; [t|].
    induction cs as [|x cs IH]; t.
  Qed.
  Hint Resolve syntax_list_mono : cmono.
  Lemma ast_from_expression_mono s : cbelow (ast_from_expression cfg f1 s) (ast_from_expression cfg f2 s).
  Proof. unfold ast_from_expression. t. Qed.
  Hint Resolve ast_from_expression_mono : cmono.

  Lemma c_expand_mono x : cbelow (c_expand cfg f1 x) (c_expand cfg f2 x).
  Proof. unfold c_expand. srch. Qed.
  Lemma c_reduce_mono x : cbelow (c_reduce cfg f1 x) (c_reduce cfg f2 x).
  Proof. unfold c_reduce. srch. Qed.
  Lemma c_normal_form_mono x : cbelow (c_normal_form cfg f1 x) (c_normal_form cfg f2 x).
  Proof. unfold c_normal_form. srch. Qed.
  Lemma c_inferred_mono x : cbelow (c_inferred cfg f1 x) (c_inferred cfg f2 x).
  Proof. unfold c_inferred. srch. Qed.
  Lemma c_contract_mono l r : cbelow (c_contract cfg f1 l r) (c_contract cfg f2 l r).
  Proof. unfold c_contract. srch. Qed.
  Hint Resolve c_expand_mono c_reduce_mono c_normal_form_mono c_inferred_mono c_contract_mono : cmono.
  Lemma execute_reduction_mono x nf : cbelow (execute_reduction cfg f1 x nf) (execute_reduction cfg f2 x nf).
  Proof. unfold execute_reduction. t. Qed.
  Lemma define_mono x y : cbelow (define cfg f1 x y) (define cfg f2 x y).
  Proof. unfold define. t. Qed.
  Hint Resolve execute_reduction_mono define_mono : cmono.
  Lemma execute_composition_mono x y : cbelow (execute_composition cfg f1 x y) (execute_composition cfg f2 x y).
  Proof. unfold execute_composition. t. Qed.
  Hint Resolve execute_composition_mono : cmono.
  Lemma match_righthand_pair_mono n m l rl rr :
    le n m -> cbelow (match_righthand_pair cfg f1 n l rl rr) (match_righthand_pair cfg f2 m l rl rr).
  Proof.
    revert m l rl rr. induction n as [|n IH]; intros [|m] l rl rr Lm; cbn [match_righthand_pair]; try lia;
      try solve [intros ?; apply below_out]. t; apply IH; lia.
  Qed.
  Section Calls.
    Variables (ca1 ca2 : tree -> CM text) (cp1 cp2 : tree -> tree -> CM text).
    Hypothesis C : forall x, cbelow (ca1 x) (ca2 x).
    Hypothesis CP : forall x y, cbelow (cp1 x y) (cp2 x y).
    Hint Resolve C CP : cmono.
    Lemma reduce_and_call_pair_mono l r :
      cbelow (reduce_and_call_pair cfg f1 cp1 l r) (reduce_and_call_pair cfg f2 cp2 l r).
    Proof. unfold reduce_and_call_pair. t. Qed.
    Lemma try_reducing_mono x :
      cbelow (try_reducing_then_call cfg f1 ca1 x) (try_reducing_then_call cfg f2 ca2 x).
    Proof. unfold try_reducing_then_call. t. Qed.
    Hint Resolve reduce_and_call_pair_mono try_reducing_mono : cmono.
    Lemma call_step_mono x : cbelow (call_step cfg f1 ca1 cp1 x) (call_step cfg f2 ca2 cp2 x).
    Proof. unfold call_step. t. Qed.
    Lemma call_let_mono r : cbelow (call_let cfg f1 r) (call_let cfg f2 r).
    Proof. unfold call_let. t. apply match_righthand_pair_mono. exact L. Qed.
    Hint Resolve call_let_mono : cmono.
    Lemma call_pair_step_mono l r :
      cbelow (call_pair_step cfg f1 ca1 cp1 l r) (call_pair_step cfg f2 ca2 cp2 l r).
    Proof. unfold call_pair_step. t. Qed.
  End Calls.
  Lemma calls_mono n m : le n m ->
    (forall x, cbelow (fst (calls cfg f1 n) x) (fst (calls cfg f2 m) x)) /\
    (forall x y, cbelow (snd (calls cfg f1 n) x y) (snd (calls cfg f2 m) x y)).
  Proof.
    revert m. induction n as [|n IH]; intros [|m] Lm; cbn [calls fst snd]; try lia;
      try solve [split; intros; intros ?; apply below_out].
    destruct (IH m) as [H1 H2]; [lia|]. split; intros; [apply call_step_mono|apply call_pair_step_mono];
      assumption.
  Qed.
  Lemma call_mono x : cbelow (call cfg f1 x) (call cfg f2 x).
  Proof. apply (calls_mono L). Qed.
  Hint Resolve call_mono : cmono.
  Lemma run_command_mono s : cbelow (run_command cfg f1 s) (run_command cfg f2 s).
  Proof. unfold run_command. t. Qed.
  Hint Resolve run_command_mono : cmono.
  Lemma execute_without_closing_scope_mono s :
    cbelow (execute_without_closing_scope cfg f1 s) (execute_without_closing_scope cfg f2 s).
  Proof. unfold execute_without_closing_scope. t. Qed.
  Lemma execute_mono s c : below (execute cfg f1 s c) (execute cfg f2 s c).
  Proof.
    unfold execute. apply below_obind; [apply execute_without_closing_scope_mono|].
    intros [r c']. apply below_refl.
  Qed.
  Lemma run_session_mono cmds : forall c, below (run_session cfg f1 cmds c) (run_session cfg f2 cmds c).
  Proof.
    induction cmds as [|s cmds IH]; intros c; cbn [run_session]; [apply below_refl|].
    apply below_obind; [apply execute_mono|]. intros [r c']. apply below_obind; [apply IH|].
    intros [rs c'']. apply below_refl.
  Qed.
  Lemma run_setup_mono cmds : cbelow (run_setup cfg f1 cmds) (run_setup cfg f2 cmds).
  Proof.
    induction cmds as [|s cmds IH]; cbn [run_setup]; [t|]. apply cbelow_bind; [|intros r; t].
    intros c. apply below_obind; [apply execute_mono|]. intros [r c']. apply below_refl.
  Qed.
  Lemma new_context_mono : below (new_context cfg f1) (new_context cfg f2).
  Proof.
    unfold new_context. apply below_obind; [|intros [r c]; apply below_refl].
    unfold setup. pose proof run_setup_mono. apply cbelow_bind; [apply cbelow_refl|intros ?].
    apply cbelow_bind; [apply cbelow_refl|intros ?]. apply H.
  Qed.
End Commands.

(** Two bounds that both give an answer give the same one. *)
Lemma below_agree A (x : nat -> outcome A) :
  (forall n m, le n m -> below (x n) (x m)) ->
  forall n m, x n <> OutOfFuel -> x m <> OutOfFuel -> x n = x m.
Proof.
  intros H n m Hn Hm. destruct (Compare_dec.le_ge_dec n m) as [K|K]; destruct (H _ _ K); congruence.
Qed.
