(** Clones of a context share its cache (zia/src/context.rs:86-112). *)
From Verif Require Export Start Snapshot StoreSpec MapFacts AstFacts RangeFacts History Sample Witness.
From Coq Require Import String List.
Import ListNotations.
Local Open Scope string_scope.

(** zia/src/context.rs:101-111 clones the reference to the cache, not the maps behind it
    (zia/src/context_cache/macro.rs:13-19: each field is an [SR::Share]); everything else
    is copied.  A command that records a change replaces its context's cache by a new one
    (zia/src/context_cache/macro.rs:33-36); one that records none goes on writing into the
    shared maps.
    Simplification: only commands that record no change are modelled on clones; the
    writes that a changing command makes before its first change are not. *)
Definition records_nothing (cfg : config) (fuel : nat) (s : text) (c : ctx) : bool :=
  match run_command cfg fuel s c with
  | Ok (_, c1) =>
    forallb (fun l => match d_order l with [] => true | _ => false end) (layers (c_delta c1))
  | _ => false
  end.
(** [sees c other]: the context [other], which shares its cache with a context that has
    become [c] without recording a change. *)
Definition sees (c other : ctx) : ctx :=
  Ctx (c_snap other) (c_delta other) (c_cache c) (c_vars other) (c_bound other)
      (pinned other) (c_tick other).

(** ** One question spoils another *)
(** The trees of `(e b c) d` and `((e b) c) d` are displayed alike and have no concept, so
    they have the same key in the cache (zia/src/ast/macro.rs:37-49). *)
Definition spoiled_commands := ["let ((_x_ b) c) d -> e"].
Definition spoiled_check (_ : list text) (c : ctx) : bool :=
  answers (txt "e") (execute cfg0 fuel0 (txt "((e b) c) d") c)
  && records_nothing cfg0 fuel0 (txt "(e b c) d") c
  && match execute cfg0 fuel0 (txt "(e b c) d") c with
     | Ok (r, c1) =>
       text_eqb r (txt "(e b c) d")
       && answers (txt "(e b c) d") (execute cfg0 fuel0 (txt "((e b) c) d") c1)
       && answers (txt "(e b c) d") (execute cfg0 fuel0 (txt "((e b) c) d") (sees c1 c))
     | _ => false
     end.
Lemma spoiled_checked :
  on_session (run_session cfg0 fuel0 (map txt spoiled_commands) context0) spoiled_check = true.
Proof. vm_compute. reflexivity. Qed.
Lemma spoiled :
  exists c c1 c2 c3 c4, reachable true c
    /\ execute cfg0 fuel0 (txt "((e b) c) d") c = Ok (txt "e", c2)
    /\ records_nothing cfg0 fuel0 (txt "(e b c) d") c = true
    /\ execute cfg0 fuel0 (txt "(e b c) d") c = Ok (txt "(e b c) d", c1)
    /\ execute cfg0 fuel0 (txt "((e b) c) d") c1 = Ok (txt "(e b c) d", c3)
    /\ execute cfg0 fuel0 (txt "((e b) c) d") (sees c1 c) = Ok (txt "(e b c) d", c4).
Proof.
  destruct (session_witness _ _ spoiled_checked) as (rs & c & _ & R & E).
  unfold spoiled_check in E. apply andb_prop in E. destruct E as [E E3].
  apply andb_prop in E. destruct E as [E1 E2]. apply answers_eq in E1. destruct E1 as [c2 E1].
  destruct (execute cfg0 fuel0 (txt "(e b c) d") c) as [[r c1]| | |] eqn:E4; try discriminate E3.
  apply andb_prop in E3. destruct E3 as [E3 E6]. apply andb_prop in E3. destruct E3 as [E3 E5].
  apply answers_eq in E5. destruct E5 as [c3 E5]. apply answers_eq in E6. destruct E6 as [c4 E6].
  destruct (text_eqb_spec r (txt "(e b c) d")) as [->|]; [|discriminate E3].
  exists c, c1, c2, c3, c4. repeat split; assumption.
Qed.
