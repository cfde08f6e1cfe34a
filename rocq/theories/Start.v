(** The context that [Context::new] builds, computed once, and a way to write sessions.
    Used by the replayed tests and by the witnesses of the refutations. *)
From Verif Require Export Context.
From Coq Require Import String Ascii List.
Import ListNotations.
Local Open Scope string_scope.

Definition fuel0 : nat := 200.

(** The context after [Context::new()], as computed by the model. *)
Definition context0 : ctx :=
  Eval vm_compute in match new_context cfg0 fuel0 with Ok c => c | _ => default_ctx end.
Lemma context0_eq : new_context cfg0 fuel0 = Ok context0.
Proof. vm_compute. reflexivity. Qed.

(** How a session ends: with answers, or by a crash, or undecided within the fuel. *)
Inductive session_result :=
| Answers (l : list string)
| Crash (site : string)
| Undecided.
Definition show (t : text) : string := string_of_list_ascii (map ascii_of_N t).
Definition session_from (c : ctx) (cmds : list string) : session_result :=
  match run_session cfg0 fuel0 (map txt cmds) c with
  | Ok (rs, _) => Answers (map show rs)
  | Err _ => Crash "error"
  | Panic s => Crash s
  | OutOfFuel => Undecided
  end.
Definition session : list string -> session_result := session_from context0.
Definition message (e : zia_error) : string := show (error_text e).
