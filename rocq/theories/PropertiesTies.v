(** C17: names that two concepts share. *)
From Verif Require Import Start Snapshot StoreSpec MapFacts RangeFacts History Sample Witness Meaning.
From Coq Require Import String List Permutation.
Import ListNotations.
Local Open Scope string_scope.

(** A debug build in which the hash sets kept at pending concepts happen to be iterated in the
    order opposite to that of their insertion. *)
Definition turned : config :=
  {| dbg := true;
     ord := fun o A l => match o with OReducesFrom (Uncommitted _) => rev l | _ => l end |}.
Lemma turned_fair : fair turned.
Proof.
  intros o A l. cbn [turned ord]. destruct o; try apply Permutation_refl.
  match goal with x : cid |- _ => destruct x end; [apply Permutation_refl|].
  apply Permutation_sym, Permutation_rev.
Qed.

Definition tie_command : text := txt "let ((a b) (:= (c c)))".
Definition tie_check (before : ctx) (pending : outcome (zres text * ctx)) (after : outcome (text * ctx)) : bool :=
  match pending, after with
  | Ok (_, c1), Ok (r, c') =>
    text_eqb r [] &&
    match concept_from_label turned (c_snap before) (c_delta c1) 10 (txt "c"),
          concept_from_label turned (c_snap c') delta_default 10 (txt "c") with
    | Ok (Some x), Ok (Some y) => negb (cid_eqb y (renamed (c_snap before) x))
    | _, _ => false
    end
  | _, _ => false
  end.
Definition tie_checks (rs : list text) (c : ctx) : bool :=
  tie_check c (run_command turned fuel0 tie_command c) (execute turned fuel0 tie_command c).
Lemma tie_checked :
  on_session (run_session cfg0 fuel0 [txt "let ((a b) (-> e))"] base_context) tie_checks = true.
Proof. vm_compute. reflexivity. Qed.
Lemma tie_meaning before pending after :
  tie_check before pending after = true ->
  exists z c1 c' x y, pending = Ok (z, c1) /\ after = Ok ([], c') /\
    concept_from_label turned (c_snap before) (c_delta c1) 10 (txt "c") = Ok (Some x) /\
    concept_from_label turned (c_snap c') delta_default 10 (txt "c") = Ok (Some y) /\
    y <> renamed (c_snap before) x.
Proof.
  unfold tie_check. destruct pending as [[z c1]| | |]; try discriminate.
  destruct after as [[r c']| | |]; try discriminate. intros H. apply andb_prop in H. destruct H as [H K].
  destruct (text_eqb_spec r []) as [->|]; [|discriminate].
  destruct (concept_from_label turned (c_snap before) _ _ _) as [[x|]| | |] eqn:E1; try discriminate.
  destruct (concept_from_label turned (c_snap c') _ _ _) as [[y|]| | |] eqn:E2; try discriminate.
  exists z, c1, c', x, y. repeat split; try first [exact E1|exact E2|reflexivity].
  destruct (cid_eqb_spec y (renamed (c_snap before) x)); [discriminate|assumption].
Qed.

(** The rest of C17 is false.  The command `let (a b) := (c c)` gives two concepts the name c.  While
    it is pending, c is looked up as one of them; once it is committed, c is looked up as the other,
    in the same build with the same hash orders. *)
Theorem C17_shared_names_refuted :
  exists cfg c z c1 c' x y,
    fair cfg /\ reachable true c /\
    run_command cfg fuel0 tie_command c = Ok (z, c1) /\ execute cfg fuel0 tie_command c = Ok ([], c') /\
    concept_from_label cfg (c_snap c) (c_delta c1) 10 (txt "c") = Ok (Some x) /\
    concept_from_label cfg (c_snap c') delta_default 10 (txt "c") = Ok (Some y) /\
    y <> renamed (c_snap c) x.
Proof.
  destruct (on_session_ok _ _ tie_checked) as (rs & c & Er & K).
  pose proof (reachable_session cfg0 fuel0 fair0 _ base_context _ c (reach_base true) Er) as R.
  destruct (tie_meaning _ _ _ K) as (z & c1 & c' & x & y & E1 & E2 & E3 & E4 & N).
  exists turned, c, z, c1, c', x, y. repeat split; try assumption; exact turned_fair.
Qed.
Print Assumptions C17_shared_names_refuted.
