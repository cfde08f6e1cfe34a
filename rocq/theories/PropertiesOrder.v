(** Iteration order of hash collections. *)
From Verif Require Import Start Snapshot StoreSpec MapFacts RangeFacts History Sample Witness.
From Coq Require Import String List Permutation.
Import ListNotations.
Local Open Scope string_scope.

(** The build of [cfg0] with every hash collection iterated in the opposite order. *)
Definition backwards : config := {| dbg := true; ord := fun _ _ l => rev l |}.
Lemma backwards_fair : fair backwards.
Proof. intros o A l. apply Permutation_sym. apply Permutation_rev. Qed.

Definition clashing_rules := ["let (_x_ a) -> b"; "let (a _y_) -> c"].
Definition clash_check (rs : list text) (c : ctx) : bool :=
  all_empty rs && answers (txt "c") (execute cfg0 fuel0 (txt "a a") c)
  && answers (txt "b") (execute backwards fuel0 (txt "a a") c).
Lemma clash_checked :
  on_session (run_session cfg0 fuel0 (map txt clashing_rules) context0) clash_check = true.
Proof. vm_compute. reflexivity. Qed.

(** C37: two rules that both fit an expression.  Which of them is used, and so the answer,
    depends on the order in which a hash set is iterated. *)
Theorem C37_answers_depend_on_hash_order_refuted :
  exists cfg1 cfg2 c c1 c2,
    fair cfg1 /\ fair cfg2 /\ dbg cfg1 = dbg cfg2 /\ reachable true c /\
    execute cfg1 fuel0 (txt "a a") c = Ok (txt "c", c1) /\
    execute cfg2 fuel0 (txt "a a") c = Ok (txt "b", c2).
Proof.
  destruct (session_witness _ _ clash_checked) as (rs & c & _ & R & K).
  unfold clash_check in K. apply andb_prop in K. destruct K as [K K3]. apply andb_prop in K.
  destruct K as [_ K2]. destruct (answers_eq _ _ K2) as [c1 E1]. destruct (answers_eq _ _ K3) as [c2 E2].
  exists cfg0, backwards, c, c1, c2. repeat split; try assumption; [exact fair0|exact backwards_fair].
Qed.
Print Assumptions C37_answers_depend_on_hash_order_refuted.
