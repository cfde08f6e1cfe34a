(** Properties that do not hold of the program.  Each theorem gives a context that arises
    from [Context::new] by commands (see [C12_contexts_are_reachable]) and what goes wrong
    there.  The sessions are in Witness.v; they are run in a debug build with hash
    collections iterated in insertion order. *)
From Verif Require Import Start Snapshot StoreSpec RangeFacts History Sample Witness.
From Coq Require Import String List Relations.
Import ListNotations.
Local Open Scope string_scope.

(** C10: c, d and e are declared left associative, every declaration succeeds, and parsing
    `c d e` slices a list backwards (zia/src/associativity.rs:33-46). *)
Theorem C10_left_associativity_refuted :
  exists c, reachable true c /\
    run_session cfg0 fuel0
      (map txt ["let assoc c -> left"; "let assoc d -> left"; "let assoc e -> left"]) context0
      = Ok ([[]; []; []], c) /\
    execute cfg0 fuel0 (txt "c d e") c = Panic "slice index out of range".
Proof. exact left_assoc. Qed.
Print Assumptions C10_left_associativity_refuted.

(** C11: the tree of `((a b) c) d` is displayed as `(a b) c d`, which parses to another tree. *)
Theorem C11_display_does_not_parse_back_refuted :
  exists t t',
    parsed (ast_from_expression cfg0 fuel0 (txt "((a b) c) d") context0) = Some t /\
    parsed (ast_from_expression cfg0 fuel0 (display t) context0) = Some t' /\
    shape_of t =
      SPair (SPair (SPair (SSymbol (txt "a")) (SSymbol (txt "b"))) (SSymbol (txt "c"))) (SSymbol (txt "d")) /\
    shape_of t' =
      SPair (SPair (SSymbol (txt "a")) (SSymbol (txt "b"))) (SPair (SSymbol (txt "c")) (SSymbol (txt "d"))).
Proof. exact printing_regroups. Qed.
Print Assumptions C11_display_does_not_parse_back_refuted.

(** C11, on whole commands: the answer to `((a b) c) d` is `(a b c) d`; after
    `let (((a b) c) d) -> e` the two have different answers. *)
Theorem C11_answers_mean_something_else_refuted :
  exists c c1 c2 c3, reachable true c /\
    execute cfg0 fuel0 (txt "((a b) c) d") context0 = Ok (txt "(a b c) d", c1) /\
    execute cfg0 fuel0 (txt "((a b) c) d") c = Ok (txt "e", c2) /\
    execute cfg0 fuel0 (txt "(a b c) d") c = Ok (txt "(a b c) d", c3).
Proof. exact printed_differs. Qed.
Print Assumptions C11_answers_mean_something_else_refuted.

(** C14: `let a -> _x_`, `let a -> b`. *)
Theorem C14_listed_reductions_refuted :
  exists c, reachable true c /\ ~ listed_reductions_are_real (c_snap c).
Proof. exact stale_list. Qed.
Print Assumptions C14_listed_reductions_refuted.

(** C15: `let x := p q`, `let a -> x`, `let (mylet (-> let))`, `mylet (a := b c)`. *)
Theorem C15_composition_links_refuted :
  exists c, reachable true c /\ ~ listed_compositions_are_real (c_snap c).
Proof. exact stale_hand. Qed.
Print Assumptions C15_composition_links_refuted.

(** C16: `let foo := true`. *)
Theorem C16_builtin_names_refuted :
  exists c, reachable true c /\
    concept_from_label cfg0 (c_snap c) (c_delta c) fuel0 (txt "true") = Ok None.
Proof. exact renamed_true. Qed.
Print Assumptions C16_builtin_names_refuted.

(** C21: `let a -> _x_`, `let b -> a`, `let a -> b`. *)
Theorem C21_reductions_form_a_cycle_refuted :
  exists c n, reachable true c /\ clos_trans nat (reduces (c_snap c)) n n.
Proof. exact cycle. Qed.
Print Assumptions C21_reductions_form_a_cycle_refuted.

(** C23: commands that crash in the context of [Context::new]. *)
Theorem C23_commands_crash_refuted :
  exists c, new_context cfg0 fuel0 = Ok c /\ reachable true c /\ forall cmd site,
    In (cmd, site)
      [("let b b -> c", "commit_new_concept_with_dependent_concepts");
       ("let a := b b", "write_concepts");
       ("let true -> false", "Cannot reduce a concrete concept");
       ("let false", "Cannot reduce a concrete concept");
       ("let _x_ := true", "No label to remove")] ->
    execute cfg0 fuel0 (txt cmd) c = Panic site.
Proof. exact (ex_intro _ context0 (conj context0_eq (conj context0_reachable commands_crash))). Qed.
Print Assumptions C23_commands_crash_refuted.

(** C26: the rule `let _x_ foo -> bar _x_` and the query `new foo`, twice. *)
Theorem C26_repeated_query_refuted :
  exists c c1, reachable true c /\
    execute cfg0 fuel0 (txt "new foo") c = Ok (txt "bar new", c1) /\
    execute cfg0 fuel0 (txt "new foo") c1 = Panic "No concept with id".
Proof.
  destruct stale_cache as (c & c1 & _ & R & E1 & E2 & _).
  exact (ex_intro _ c (ex_intro _ c1 (conj R (conj E1 E2)))).
Qed.
Print Assumptions C26_repeated_query_refuted.

(** C30, on whole commands: under the rule `let _x_ same _x_ -> true` two different
    expressions are taken for the same. *)
Theorem C30_rules_on_commands_refuted :
  exists rs c c', reachable true c /\
    run_session cfg0 fuel0 (map txt ["let _x_ same _x_ -> true"]) context0 = Ok (rs, c) /\
    execute cfg0 fuel0 (txt "(((a b) c) d) same ((a b c) d)") c = Ok (txt "true", c').
Proof. exact conflated. Qed.
Print Assumptions C30_rules_on_commands_refuted.

(** C36: with the cache the query crashes, with an empty cache it is answered. *)
Theorem C36_stale_cache_refuted :
  exists c c2, reachable true c /\
    execute cfg0 fuel0 (txt "new foo") c = Panic "No concept with id" /\
    execute cfg0 fuel0 (txt "new foo") (forget_cache c) = Ok (txt "bar new", c2).
Proof.
  destruct stale_cache as (c & c1 & c2 & R & E1 & E2 & E3).
  exact (ex_intro _ c1 (ex_intro _ c2 (conj (reach_execute true cfg0 fuel0 _ _ _ _ fair0 eq_refl R E1) (conj E2 E3)))).
Qed.
Print Assumptions C36_stale_cache_refuted.

(** C43: after `let a -> (let b -> c)`, `a` is answered with an error and does nothing,
    while `let b -> c` takes effect. *)
Theorem C43_indirect_commands_refuted :
  exists c c1 c1' c2 c2', reachable true c /\
    execute cfg0 fuel0 (txt "a") c = Ok (error_text MultiplePointersToDelta, c1) /\
    execute cfg0 fuel0 (txt "b") c1 = Ok (txt "b", c1') /\
    execute cfg0 fuel0 (txt "let b -> c") c = Ok ([], c2) /\
    execute cfg0 fuel0 (txt "b") c2 = Ok (txt "c", c2').
Proof. exact indirect. Qed.
Print Assumptions C43_indirect_commands_refuted.
