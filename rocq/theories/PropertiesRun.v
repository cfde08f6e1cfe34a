(** Termination of commands.  The model bounds the recursion of the evaluator by a number
    (the fuel); [OutOfFuel] means the bound was hit.  The program has no such bound, so a
    command terminates exactly when some bound suffices. *)
From Verif Require Import Start Snapshot StoreSpec RangeFacts History Sample Witness Fuel Diverge.
From Coq Require Import String List.
Import ListNotations.
Local Open Scope string_scope.

(** The bound is only a bound: whenever two bounds both suffice, the command has the same
    outcome, so nothing said about an outcome depends on the bound chosen. *)
Theorem C24_outcomes_do_not_depend_on_the_bound :
  forall cfg command c n m,
    execute cfg n command c <> OutOfFuel -> execute cfg m command c <> OutOfFuel ->
    execute cfg n command c = execute cfg m command c.
Proof.
  intros cfg command c. apply (below_agree (fun n => execute cfg n command c)).
  intros n m L. apply (execute_mono cfg L command c).
Qed.
Print Assumptions C24_outcomes_do_not_depend_on_the_bound.

(** A bound that suffices keeps sufficing when it grows. *)
Theorem C24_larger_bounds_suffice_too :
  forall cfg command c n m,
    le n m -> execute cfg n command c <> OutOfFuel ->
    execute cfg m command c = execute cfg n command c.
Proof.
  intros cfg command c n m L N. destruct (execute_mono cfg L command c) as [E|E]; [contradiction|].
  symmetry. exact E.
Qed.
Print Assumptions C24_larger_bounds_suffice_too.

Definition answer_is (x : outcome (text * ctx)) (s : string) : bool :=
  match x with Ok (t, _) => text_eqb t (txt s) | _ => false end.
(** A command for which two different bounds suffice, and a bound that does not. *)
Example C24_bound_example :
  answer_is (execute cfg0 40 (txt "label_of (a b)") context0) "'a b'" = true /\
  answer_is (execute cfg0 60 (txt "label_of (a b)") context0) "'a b'" = true /\
  answer_is (execute cfg0 20 (txt "label_of (a b)") context0) "'a b'" = false.
Proof. vm_compute. repeat split. Qed.

(** C24: after `let a -> _x_`, `let b -> a`, `let a -> b` (all accepted) evaluating `a` goes
    on for ever: no bound suffices. *)
Theorem C24_evaluation_never_ends_refuted :
  exists c rs, reachable true c /\
    run_session cfg0 fuel0 (map txt ["let a -> _x_"; "let b -> a"; "let a -> b"]) context0 = Ok (rs, c) /\
    forall n, execute cfg0 n (txt "a") c = OutOfFuel.
Proof. exact never_ends. Qed.
Print Assumptions C24_evaluation_never_ends_refuted.
