(** C23: commands that do not crash. *)
From Verif Require Import Start Snapshot Context CommandSpec CommandFacts CommandRun StoreSpec RangeFacts History Acyclic NoCrash Sample
  PropertiesCommand PropertiesCycles.
From Coq Require Import String List Bool PeanoNat.
Import ListNotations.
Local Open Scope string_scope.

(** Full statement: every command in every context is answered, refuted by
    [C23_commands_crash_refuted].  Proved for telling the symbols of any command apart, the first
    stage of executing it, and for the commands that are not properly bracketed: after every history
    they do not crash, for every hash order and both builds.  ([OutOfFuel] says that the model was
    given too few steps.) *)
Theorem C23_lexing_never_crashes_partial b c cfg fuel command : fair cfg -> reachable b c ->
  lex (kind_of_symbol cfg fuel c) command = OutOfFuel \/
  exists lexemes, lex (kind_of_symbol cfg fuel c) command = Ok lexemes.
Proof.
  intros F R. pose proof (reachable_ready _ _ R) as RD. apply calm_lex. intros t.
  apply (calm_kind cfg (c_snap c) F (ready_sane c RD)); [reflexivity|exact (ready_delta c RD)].
Qed.
Print Assumptions C23_lexing_never_crashes_partial.

Theorem C23_bad_brackets_never_crash_partial b c cfg fuel command : fair cfg -> reachable b c ->
  ~ properly_bracketed command ->
  execute cfg fuel command c = OutOfFuel \/ exists e, execute cfg fuel command c = Ok (error_text e, c).
Proof.
  intros F R P. destruct (C23_lexing_never_crashes_partial b c cfg fuel command F R) as [L|(ls & L)].
  - left. unfold execute, execute_without_closing_scope, catch, run_command. unfold cbind at 1. unfold cbind at 1 2.
    rewrite ast_by_command. unfold read_command. rewrite L. reflexivity.
  - right. destruct (execute_improper b cfg fuel command c ls R L P) as (e & _ & E). eauto.
Qed.
Print Assumptions C23_bad_brackets_never_crash_partial.

(** After the histories in which no command gives a reduction to a concept that has one, some number of
    steps is enough for all commands: every command is cut into lexemes and every command that is not
    properly bracketed is answered with an error and changes nothing.
    Missing: the properly bracketed commands, some of which crash, and the histories in which reductions
    make a cycle. *)
Theorem C23_bad_brackets_are_answered_partial b c cfg : fair cfg -> reachable_first b c ->
  exists steps, forall fuel, le steps fuel -> forall command,
    (exists lexemes, lex (kind_of_symbol cfg fuel c) command = Ok lexemes) /\
    (~ properly_bracketed command -> exists e,
       (e = EmptyParentheses \/ e = UnmatchedParentheses \/ e = EmptyExpression) /\
       execute cfg fuel command c = Ok (error_text e, c)).
Proof.
  intros F R. pose proof (reachable_first_without b c R) as R'. pose proof (reachable_ready _ _ R') as RD.
  destruct (reachable_tidy b c R) as [AC LR].
  destruct (kinds_end cfg (c_snap c) F (ready_sane c RD) AC LR) as (f & K). exists f. intros fuel L command.
  assert (E : exists ls, lex (kind_of_symbol cfg fuel c) command = Ok ls).
  { apply LexerFacts.lex_total_lemma. intros t. apply (K fuel L c t eq_refl (ready_delta c RD)). }
  split; [exact E|]. destruct E as (ls & E). intros P. exact (execute_improper b cfg fuel command c ls R' E P).
Qed.
Print Assumptions C23_bad_brackets_are_answered_partial.

(** A history and commands that the three theorems are about. *)
Example C23_applies :
  exists c, reachable_first true c /\ reachable true c /\
    (exists n m, reduces (c_snap c) 82 n /\ reduces (c_snap c) n m) /\
    ~ properly_bracketed (txt "let (a b").
Proof.
  destruct C14_C21_example as (c & R & _ & n & m & A & B & _). exists c. split; [exact R|].
  split; [exact (reachable_first_without _ _ R)|]. split; [eauto|]. exact (proj1 C06_example).
Qed.
