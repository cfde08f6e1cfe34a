(** Debug and release builds.  [debug f] and [release f] are the two builds when the hash
    collections are iterated in the order [f]; the statements hold for every order, every
    command and every state, reachable or not. *)
From Verif Require Import Start Snapshot StoreSpec RangeFacts History Sample Witness Build.
From Coq Require Import String List.
Import ListNotations.
Local Open Scope string_scope.

(** The debug build either crashes at one of its assertions (or while working out what one
    of them inspects), or does what the release build does: the same answer, the same new
    state, the same crash or the same lack of an end. *)
Theorem C42_builds_agree :
  forall order fuel command c,
    (exists site, debug_only site /\ execute (debug order) fuel command c = Panic site) \/
    execute (debug order) fuel command c = execute (release order) fuel command c.
Proof. exact execute_like. Qed.
Print Assumptions C42_builds_agree.

(** Hence, in terms of what a user sees of a whole session: if the debug build answers,
    the release build gives the same answers and ends in the same state. *)
Theorem C42_sessions_agree :
  forall order fuel commands c answers c',
    run_session (debug order) fuel commands c = Ok (answers, c') ->
    run_session (release order) fuel commands c = Ok (answers, c').
Proof.
  intros order fuel commands c a c' E. destruct (run_session_like order fuel commands c) as [[s [_ P]]|P];
    congruence.
Qed.
Print Assumptions C42_sessions_agree.

(** The same for starting the program. *)
Theorem C42_starting_agrees :
  forall order fuel c, new_context (debug order) fuel = Ok c -> new_context (release order) fuel = Ok c.
Proof.
  intros order fuel c E. destruct (new_context_like order fuel) as [[s [_ P]]|P]; congruence.
Qed.
Print Assumptions C42_starting_agrees.

(** The context all sessions start from is that of both builds, and a command that defines
    and prints has the same outcome in both. *)
Example C42_start_example : new_context (release (fun _ _ l => l)) fuel0 = Ok context0.
Proof. apply C42_starting_agrees. exact context0_eq. Qed.
Definition printing_checked :
  answers (txt "'a b'") (execute cfg0 fuel0 (txt "label_of (a b)") context0) = true.
Proof. vm_compute. reflexivity. Qed.
Example C42_command_example :
  exists c', execute (debug (fun _ _ l => l)) fuel0 (txt "label_of (a b)") context0 = Ok (txt "'a b'", c') /\
    execute (release (fun _ _ l => l)) fuel0 (txt "label_of (a b)") context0 = Ok (txt "'a b'", c').
Proof.
  destruct (answers_eq _ _ printing_checked) as [c' E]. exists c'. split; [exact E|].
  destruct (C42_builds_agree (fun _ _ l => l) fuel0 (txt "label_of (a b)") context0) as [[s [_ P]]|P].
  - pose proof (eq_trans (eq_sym E) P). discriminate.
  - exact (eq_trans (eq_sym P) E).
Qed.

(** The exception is needed: asking whether something exists such that [foo] crashes the
    debug build, whereas the release build answers. *)
Definition existence_checked :
  crashes_at "Generalisation doesn't contain bound variables"
    (execute cfg0 fuel0 (txt "(_x_ exists_such_that) foo") context0) &&
  answers (txt "true") (execute (release (fun _ _ l => l)) fuel0 (txt "(_x_ exists_such_that) foo") context0) = true.
Proof. vm_compute. reflexivity. Qed.
Theorem C42_an_assertion_fails :
  exists command, execute (debug (fun _ _ l => l)) fuel0 command context0
                  = Panic "Generalisation doesn't contain bound variables" /\
    exists c', execute (release (fun _ _ l => l)) fuel0 command context0 = Ok (txt "true", c').
Proof.
  exists (txt "(_x_ exists_such_that) foo").
  destruct (andb_prop _ _ existence_checked) as [K1 K2].
  exact (conj (crashes_at_eq _ _ K1) (answers_eq _ _ K2)).
Qed.
Print Assumptions C42_an_assertion_fails.
