(** Answers and the cache: one question spoils another (C36, C39). *)
From Verif Require Import Clones.
From Coq Require Import String List.
Import ListNotations.
Local Open Scope string_scope.

(** C36: after `let ((_x_ b) c) d -> e` the question `((e b) c) d` is answered `e`; if
    `(e b c) d` is asked first, it is answered `(e b c) d`.  No command in between changes
    what the context knows: the two expressions have the same key in the cache. *)
Theorem C36_one_question_spoils_another_refuted :
  exists c c1 c2 c3, reachable true c
    /\ execute cfg0 fuel0 (txt "((e b) c) d") c = Ok (txt "e", c2)
    /\ execute cfg0 fuel0 (txt "(e b c) d") c = Ok (txt "(e b c) d", c1)
    /\ execute cfg0 fuel0 (txt "((e b) c) d") c1 = Ok (txt "(e b c) d", c3).
Proof.
  destruct spoiled as (c & c1 & c2 & c3 & _ & R & E1 & _ & E2 & E3 & _).
  exact (ex_intro _ c (ex_intro _ c1 (ex_intro _ c2 (ex_intro _ c3
           (conj R (conj E1 (conj E2 E3))))))).
Qed.
Print Assumptions C36_one_question_spoils_another_refuted.

(** C39: the same, with the first question put to a clone.  The clone records no change,
    so that it writes into the cache that the original reads. *)
Theorem C39_clones_share_their_cache_refuted :
  exists c c1 c2 c3, reachable true c
    /\ execute cfg0 fuel0 (txt "((e b) c) d") c = Ok (txt "e", c2)
    /\ records_nothing cfg0 fuel0 (txt "(e b c) d") c = true
    /\ execute cfg0 fuel0 (txt "(e b c) d") c = Ok (txt "(e b c) d", c1)
    /\ execute cfg0 fuel0 (txt "((e b) c) d") (sees c1 c) = Ok (txt "(e b c) d", c3).
Proof.
  destruct spoiled as (c & c1 & c2 & _ & c4 & R & E1 & E0 & E2 & _ & E3).
  exact (ex_intro _ c (ex_intro _ c1 (ex_intro _ c2 (ex_intro _ c4
           (conj R (conj E1 (conj E0 (conj E2 E3)))))))).
Qed.
Print Assumptions C39_clones_share_their_cache_refuted.
