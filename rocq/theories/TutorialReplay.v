(** The tests of the tutorials (zia-lang.org/crate/src/page/home/tutorials.rs:280-331),
    replayed in the model.  These are checks of the model against expectations written by
    the project's authors, not theorems about the program: the definitions below are the
    values that the model computes when this file is compiled, and the file compiles only
    if they are the answers that the tests expect. *)
From Verif Require Import Start Tutorials.
From Coq Require Import String List.
Import ListNotations.
Local Open Scope string_scope.

Definition answers_of (steps : list tutorial_step) : session_result :=
  session_from context0 (map step_command steps).
Definition expected_of (steps : list tutorial_step) : session_result :=
  Answers (map step_expected steps).

Definition factorial_answers : session_result :=
  Eval vm_compute in answers_of factorial_tutorial.
Example factorial_replayed : factorial_answers = expected_of factorial_tutorial.
Proof. reflexivity. Qed.
Definition arrays_answers : session_result :=
  Eval vm_compute in answers_of arrays_tutorial.
Example arrays_replayed : arrays_answers = expected_of arrays_tutorial.
Proof. reflexivity. Qed.
(** This one takes about three minutes. *)
Definition relationships_answers : session_result :=
  Eval vm_compute in answers_of relationships_tutorial.
Example relationships_replayed : relationships_answers = expected_of relationships_tutorial.
Proof. reflexivity. Qed.
