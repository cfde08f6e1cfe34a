(** C36: nothing that is remembered is older than the last change. *)
From Verif Require Import Start Snapshot Search Context AstSpec StoreSpec MapFacts StoreFacts AstFacts History Steps
  Sample Witness Quiet Questions SearchKeeps Rules SearchCaches Earned CacheRun CacheLife Uses PropertiesUses Moments.
From Coq Require Import String List Bool.
Import ListNotations.
Local Open Scope string_scope.

(** ** C36 *)
(** After every history, everything in the memory of a context was computed by the evaluator, with a memory that was
    filled in the same way, from a store with changes to be committed that make it the store of now: either from the store
    as it is, or from what the last command with changes knew at its end.  Reductions and trees were computed for a
    question to the context.  For every build mode, and hash orders and fuels that may differ from command to command.
    What is missing to the full statement is refuted by [C36_stale_cache_refuted] (identifiers of what is not yet
    committed are no longer valid afterwards) and [C36_one_question_spoils_another_refuted] (the entry is found again by
    its text and concept, which other trees may share). *)
Theorem C36_nothing_older_than_the_last_change b c :
  reachable b c ->
  (forall k r, In (k, r) (k_red (c_cache c)) -> computed_reduction (leading_to b (c_snap c)) true k r) /\
  (forall id t, In (id, t) (k_syn (c_cache c)) -> computed_tree (leading_to b (c_snap c)) true id t) /\
  (forall id r, In (id, r) (k_inf (c_cache c)) -> computed_inference (leading_to b (c_snap c)) id r).
Proof. exact (reachable_computed b c). Qed.
Print Assumptions C36_nothing_older_than_the_last_change.

(** The same when a command has been run, before its changes are committed: if it has changes then everything that is
    remembered was computed from what is known at this moment. *)
Theorem C36_nothing_older_than_the_changes b cfg fuel q c z c1 :
  fair cfg -> dbg cfg = b -> reachable b c -> run_command cfg fuel q c = Ok (z, c1) ->
  let M := fun cfg' fuel' snap d =>
    (cfg' = cfg /\ fuel' = fuel /\ snap = c_snap c /\ d = c_delta c1) \/ (recorded c1 = [] /\ leading_to b (c_snap c) cfg' fuel' snap d) in
  (forall k r, In (k, r) (k_red (c_cache c1)) -> computed_reduction M true k r) /\
  (forall id t, In (id, t) (k_syn (c_cache c1)) -> computed_tree M true id t) /\
  (forall id r, In (id, r) (k_inf (c_cache c1)) -> computed_inference M id r).
Proof.
  intros F D RC E M. pose proof (reachable_ready _ _ RC) as R.
  destruct (run_computed cfg fuel (c_snap c) _ (sane_numbers _ (ready_sane _ R)) q c z c1 eq_refl (ready_recorded _ R) (reachable_computed b c RC) E) as [_ H].
  exact (computed_cache_more _ M _ (fun a f s d X => match X with or_introl Y => or_intror Y | or_intror Y => or_introl Y end) H).
Qed.
Print Assumptions C36_nothing_older_than_the_changes.

(** ** A case *)
(** The use of a rule is remembered after two more commands. *)
Example C36_nothing_older_case : exists c k t' pattern m why, reachable true c /\
  In (k, Some (t', RRule pattern m why)) (k_red (c_cache c)) /\ display t' = txt "two b" /\
  computed_reduction (leading_to true (c_snap c)) true k (Some (t', RRule pattern m why)).
Proof.
  destruct (session_witness _ _ twice_used) as (rs & c & E & R & K).
  unfold use_check in K. destruct (find _ _) as [[[s i] r0]|]; [|discriminate]. cbn [fst] in K.
  destruct (aget key_eqb (s, i) _) as [r|] eqn:A; [|discriminate]. unfold two_b in K.
  destruct r as [[t' why]|]; [|discriminate]. destruct why as [| |p m why| | | | | | | |]; try discriminate K.
  destruct m as [|x m]; [discriminate|]. apply (aget_in _ key_eqb_spec) in A.
  exists c, (s, i), t', p, (x :: m), why. split; [exact R|]. split; [exact A|]. split; [destruct (text_eqb_spec (display t') (txt "two b")); [assumption|discriminate]|].
  exact (proj1 (C36_nothing_older_than_the_last_change true c R) _ _ A).
Qed.
