(** The interactive shell (izia/src/main.rs). *)
From Verif Require Export Context.
From Coq Require Import String List.
Import ListNotations.
Local Open Scope string_scope.

(** izia/src/main.rs:21, 29: what [read_line] returns ([linefeed::ReadResult]).
    Simplification: the signal is not told apart, and a failing terminal, on which the
    [unwrap]s of lines 25, 27 and 29 would panic, is left out. *)
Inductive read_result := Input (line : text) | EndOfInput | Signal.

(** How the shell ends: it leaves its loop, it panics, it waits for another line, or the
    model cannot tell because it runs out of fuel. *)
Inductive ending := Exited | Crashed (site : string) | Waiting | Undecided.

Section Shell.
  Variable cfg : config.
  Variable fuel : nat.

  (** izia/src/main.rs:29-32: what is printed, one element for each [println!].  [execute]
      returns a [String] in the source, so that [Err] stands for nothing there. *)
  Fixpoint shell_loop (reads : list read_result) (c : ctx) : list text * ending :=
    match reads with
    | [] => ([], Waiting)
    | Input line :: reads =>
      match execute cfg fuel line c with
      | Ok (answer, c') => let (printed, e) := shell_loop reads c' in (answer :: printed, e)
      | Err _ => ([], Crashed "error")
      | Panic site => ([], Crashed site)
      | OutOfFuel => ([], Undecided)
      end
    | _ :: _ => ([txt "Exiting"], Exited)
    end.

  (** izia/src/main.rs:26 *)
  Definition newline : text := [10%N].
  Definition banner : text :=
    (txt "IZia Copyright (C) 2018 to 2019 Charles Johnson." ++ newline ++
     txt "This program comes with ABSOLUTELY NO WARRANTY." ++ newline ++
     txt "This is free software, and you are welcome to redistribute it under certain" ++ newline ++
     txt "conditions; visit https://www.gnu.org/licenses/gpl-3.0.en.html for more details.")%list.

  (** izia/src/main.rs:24-33; line 28 unwraps the result of [Context::new]. *)
  Definition shell (reads : list read_result) : list text * ending :=
    match new_context cfg fuel with
    | Ok c => let (printed, e) := shell_loop reads c in (banner :: printed, e)
    | Err _ => ([banner], Crashed "new: unwrap")
    | Panic site => ([banner], Crashed site)
    | OutOfFuel => ([banner], Undecided)
    end.
End Shell.
