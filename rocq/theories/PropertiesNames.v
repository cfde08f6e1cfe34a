(** C18: names of concepts. *)
From Verif Require Import Start Snapshot StoreSpec NameSpec MapFacts AstFacts RangeFacts History Sim SimRead Steps StoreInv Links Acyclic
  Names StoreLaws OneName Sample Witness NameWitness.
From Coq Require Import String List Bool PeanoNat.
Import ListNotations.
Local Open Scope string_scope.

(** Full statement: after any history a symbol denotes at most one concept and the label of the concept
    denoted by a symbol is that symbol.  The first half is refuted
    ([C18_two_concepts_share_a_name_refuted]).  Proved for the histories in which no command replaces or
    removes a composition (nor, in release builds, composes an existing concept): a concept carries at
    most one label. *)
Theorem C18_concepts_have_one_name_partial (b : bool) (c : ctx) :
  reachable_with b (links_safe b) c ->
  forall n t u, carries_label (c_snap c) n t -> carries_label (c_snap c) n u -> t = u.
Proof.
  intros R. destruct (links_agree_reachable b c R) as (_ & _ & UC).
  destruct (reachable_built_in b c (reachable_without _ _ _ R) CLabel) as (l & BL & _ & UL & _).
  apply label_one; [exact UC|]. intros x y X Y. rewrite (UL x X), (UL y Y). reflexivity.
Qed.
Print Assumptions C18_concepts_have_one_name_partial.

(** If moreover no command gives a reduction to a concept that has one, then what a symbol denotes
    carries that symbol as its label, carries no other, and asking for its label gives the symbol.
    Every history of this kind, hash order and build mode.
    Missing: histories that rename concepts, for which the second half is open. *)
Theorem C18_symbols_name_what_they_denote_partial (b : bool) (c : ctx) cfg fuel t x :
  fair cfg -> reachable_with b (links_safe b) c -> reachable_first b c ->
  concept_from_label cfg (c_snap c) (c_delta c) fuel t = Ok (Some x) ->
  exists n, x = Committed n /\ carries_label (c_snap c) n t /\
    (forall u, carries_label (c_snap c) n u -> u = t) /\
    forall fuel' v, get_label cfg (c_snap c) (c_delta c) fuel' x = Ok v -> v = Some t.
Proof.
  intros F R RF E. pose proof (reachable_without _ _ _ R) as RE. pose proof (reachable_ready _ _ RE) as RD.
  destruct (links_agree_reachable b c R) as (LC & _ & UC).
  destruct (reachable_built_in b c RE CLabel) as (l & BL & _ & UL & _ & _ & CI).
  assert (UL' : forall x y, built_in (c_snap c) x CLabel -> built_in (c_snap c) y CLabel -> x = y).
  { intros y z Y Z. rewrite (UL y Y), (UL z Z). reflexivity. }
  assert (D : c_delta c = delta_default) by apply RD. rewrite D in *.
  destruct (from_label_found cfg (c_snap c) F fuel t x E) as (n & -> & FU).
  pose proof (found_carries (c_snap c) (proj2 (reachable_tidy b c RF)) (reachable_strings b c RE) t n FU) as CL.
  exists n. split; [reflexivity|]. split; [exact CL|]. split.
  - intros u U. exact (label_one (c_snap c) UC UL' n u t U CL).
  - intros fuel' v. apply (label_of_committed (c_snap c) UL' cfg LC l); [|exact BL|exact CL].
    rewrite (concrete_id_plain cfg _ _ F). rewrite (concrete_id_plain cfg0 _ _ fair0) in CI. exact CI.
Qed.
Print Assumptions C18_symbols_name_what_they_denote_partial.

(** ** The hypotheses are met *)
Lemma runs_agree cfg fuel cmds : forall c a b,
  run_safely cfg fuel cmds c = Some a -> run_first cfg fuel cmds c = Some b -> a = b.
Proof.
  induction cmds as [|t cmds IH]; intros c a b A B; cbn [run_safely run_first] in *.
  - congruence.
  - destruct (run_command cfg fuel t c) as [[z c1]| | |]; try discriminate A.
    destruct (execute cfg fuel t c) as [[r c2]| | |]; try discriminate A.
    destruct (forallb _ _); [|discriminate A]. destruct (first_reductions_b _ _ _); [|discriminate B].
    exact (IH c2 a b A B).
Qed.
Definition naming_commands : list text := map txt ["let (p (:= (q r)))"; "let ((q d) (-> p))"].
Definition naming_check (x y : option ctx) : bool :=
  match x, y with
  | Some c, Some _ => 
    match concept_from_label cfg0 (c_snap c) (c_delta c) fuel0 (txt "p") with
    | Ok (Some x) => match get_label cfg0 (c_snap c) (c_delta c) fuel0 x with Ok (Some _) => true | _ => false end
    | _ => false
    end
  | _, _ => false
  end.
Lemma naming_checked :
  naming_check (run_safely cfg0 fuel0 naming_commands base_context) (run_first cfg0 fuel0 naming_commands base_context) = true.
Proof. vm_compute. reflexivity. Qed.
Example C18_applies :
  exists c n, reachable_with true (links_safe true) c /\ reachable_first true c /\
    concept_from_label cfg0 (c_snap c) (c_delta c) fuel0 (txt "p") = Ok (Some (Committed n)) /\
    carries_label (c_snap c) n (txt "p") /\
    get_label cfg0 (c_snap c) (c_delta c) fuel0 (Committed n) = Ok (Some (txt "p")).
Proof.
  pose proof naming_checked as K. unfold naming_check in K.
  destruct (run_safely cfg0 fuel0 naming_commands base_context) as [c|] eqn:E1; [|discriminate K].
  destruct (run_first cfg0 fuel0 naming_commands base_context) as [c'|] eqn:E2; [|discriminate K].
  pose proof (runs_agree _ _ _ _ _ _ E1 E2). subst c'.
  pose proof (run_safely_reachable cfg0 fuel0 naming_commands fair0 base_context c (reach_with_base _ _) E1) as R.
  pose proof (run_first_reachable cfg0 fuel0 naming_commands fair0 base_context c (first_base _) E2) as RF.
  destruct (concept_from_label _ _ _ _ _) as [[x|]| | |] eqn:E3; try discriminate K.
  destruct (get_label _ _ _ _ _) as [[v|]| | |] eqn:E4; try discriminate K.
  destruct (C18_symbols_name_what_they_denote_partial true c cfg0 fuel0 (txt "p") x fair0 R RF E3) as (n & -> & CL & _ & G).
  exists c, n. split; [exact R|]. split; [exact RF|]. split; [exact E3|]. split; [exact CL|].
  rewrite E4. f_equal. exact (G _ _ E4).
Qed.
