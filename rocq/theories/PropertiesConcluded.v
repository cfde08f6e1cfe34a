(** C80: what follows from something true is true. *)
From Verif Require Import Lexer LexerSpec Start Snapshot Search Context StoreSpec StoreInv MapFacts AstSpec AstFacts StoreFacts RangeFacts History
  StoreLaws OneName NameSpec Names Displays SearchCaches Existence Wide Matches Implications Asking Links Keyed Sample Witness
  NameWitness Frames PropertiesAsking Shapes Unruled Answers Replies PropertiesAnswers Circular PropertiesCircular Concluded.
From Coq Require Import String List Bool PeanoNat Relations.
Import ListNotations.
Local Open Scope string_scope.

(** A word for a symbol that follows from a symbol declared to be true, by any number of implications, is
    answered with the name of the built-in concept true, and the store stays as it is.  Right after a change
    to the store, for every history in which no composition is replaced or removed, every hash order, every
    bound on the work and both build modes.  Missing from C80: a symbol that is true only because it reduces to
    another one that is true, see below. *)
Theorem C80_conclusions_are_true_partial b cfg fuel c t yes k w answer c' :
  fair cfg -> dbg cfg = b -> reachable_with b (links_safe b) c -> c_cache c = empty_cache ->
  operators_named (c_snap c) -> built_in (c_snap c) t CTrue -> settled_symbol (c_snap c) t yes ->
  follows (c_snap c) k -> means (c_snap c) w k -> goes_by (c_snap c) k w -> is_variable_text w = false ->
  execute cfg fuel w c = Ok (answer, c') -> answer = yes /\ c_snap c' = c_snap c.
Proof.
  intros F D R K ON BT ST Fo Me G V E. pose proof (reachable_without _ _ _ R) as R0.
  pose proof (sane_numbers _ (ready_sane _ (reachable_ready b c R0))) as N.
  destruct (links_agree_reachable b c R) as (LC & LR & UC).
  destruct (reachable_built_in b c R0 CLabel) as (lab & BL & _ & UL & _ & _ & CI).
  destruct (reachable_built_in b c R0 CImplication) as (imp & BM & _ & UM & _ & _ & CM).
  destruct (reachable_built_in b c R0 CTrue) as (t' & _ & _ & UT & _).
  rewrite (concrete_id_plain cfg0 _ _ fair0) in CI. rewrite <- (concrete_id_plain cfg _ _ F) in CI.
  rewrite (concrete_id_plain cfg0 _ _ fair0) in CM. rewrite <- (concrete_id_plain cfg _ _ F) in CM.
  assert (UL' : forall x y, built_in (c_snap c) x CLabel -> built_in (c_snap c) y CLabel -> x = y).
  { intros y z Y Z. rewrite (UL y Y), (UL z Z). reflexivity. }
  assert (UT' : forall x, built_in (c_snap c) x CTrue -> x = t).
  { intros x X. rewrite (UT x X), (UT t BT). reflexivity. }
  assert (BI : forall cc y, concrete_concept_id cfg (c_snap c) delta_default cc = Ok (Some y) -> is_built_in (c_snap c) y cc).
  { intros cc y X. destruct (reachable_built_in b c R0 cc) as (n & B & _ & _ & _ & _ & CI').
    rewrite (concrete_id_plain _ _ _ F) in X. rewrite (concrete_id_plain _ _ _ fair0) in CI'.
    rewrite X in CI'. injection CI' as ->. exists n. auto. }
  exact (follows_executed cfg (c_snap c) fuel F N LC LR UL' lab CI BL BI ON imp CM UM BM (reachable_keyed b c R0) (fun _ _ => True)
    t yes BT UT' ST k w c answer c' (reachable_ready b c R0) Fo Me G V eq_refl (ready_delta _ (reachable_ready b c R0))
    ltac:(apply (reachable_ready b c R0)) K E).
Qed.
Print Assumptions C80_conclusions_are_true_partial.

(** ** The hypotheses are met *)
(** Of `a` and `c`, which imply `b`, only `a` is true; `b` implies `d`. *)
Definition conclusion_commands : list text := map txt
  ["let ((p => (q -> r)) -> true)"; "let ((a => b) -> true)"; "let ((c => b) -> true)"; "let ((b => d) -> true)";
   "let (c -> e)"; "let (a -> true)"].
Definition conclusion_context : ctx :=
  Eval vm_compute in match run_safely cfg0 fuel0 conclusion_commands base_context with Some c => c | _ => default_ctx end.
Lemma conclusion_context_eq : run_safely cfg0 fuel0 conclusion_commands base_context = Some conclusion_context.
Proof. vm_compute. reflexivity. Qed.
Lemma conclusion_context_reachable : reachable_with true (links_safe true) conclusion_context.
Proof.
  exact (run_safely_reachable cfg0 fuel0 conclusion_commands fair0 base_context conclusion_context (reach_with_base _ _) conclusion_context_eq).
Qed.
(** The concepts that imply [k]. *)
Definition conditions (s : snapshot) (k : nat) : list nat :=
  flat_map (fun q => match implied_b s k q with Some x => [x] | None => [] end) (ids s).
Lemma conditions_ok s k x : implied_by s k x <-> In x (conditions s k).
Proof.
  unfold conditions. rewrite in_flat_map. split.
  - intros H. destruct (implied_found _ _ _ H) as (q & I & E). exists q. rewrite E. split; [exact I|now left].
  - intros (q & _ & I). destruct (implied_b s k q) as [y|] eqn:E; [|destruct I]. destruct I as [->|[]]. exact (implied_ok _ _ _ _ E).
Qed.
Definition conclusion_checked (s : snapshot) : bool :=
  unnamed_variables_b s && settled_b s 14 (txt "true") && (match built_in_of s 14 with Some CTrue => true | _ => false end) &&
  ends_b s [(57, txt "a"); (14, txt "true")] && ends_b s [(65, txt "c"); (74, txt "e")] && opt_is (reduction_of s 57) 14 &&
  constant_b s 60 && constant_b s 69 && circle_word_b s (txt "b", 60, [59]) && circle_word_b s (txt "d", 69, [68]).
Lemma conclusion_checks : conclusion_checked (c_snap conclusion_context) = true.
Proof. vm_compute. reflexivity. Qed.
Lemma conclusion_conditions :
  conditions (c_snap conclusion_context) 60 = [57; 65] /\ conditions (c_snap conclusion_context) 69 = [60].
Proof. vm_compute. split; reflexivity. Qed.
Lemma circle_word_ok s w k l : circle_word_b s (w, k, l) = true -> means s w k /\ goes_by s k w /\ is_variable_text w = false.
Proof.
  intros H. cbn [circle_word_b] in H. apply andb_prop in H. destruct H as [H H3]. apply andb_prop in H. destruct H as [H1 H2].
  split; [exact (means_ok _ _ _ _ H1)|]. split; [apply GoesByLabel, carries_label_of, H2|].
  destruct (is_variable_text w); [discriminate|reflexivity].
Qed.
Example C80_example : let s := c_snap conclusion_context in
  reachable_with true (links_safe true) conclusion_context /\ c_cache conclusion_context = empty_cache /\
  operators_named s /\ built_in s 14 CTrue /\ settled_symbol s 14 (txt "true") /\
  (follows s 60 /\ means s (txt "b") 60 /\ goes_by s 60 (txt "b") /\ is_variable_text (txt "b") = false) /\
  (follows s 69 /\ means s (txt "d") 69 /\ goes_by s 69 (txt "d") /\ is_variable_text (txt "d") = false).
Proof.
  split; [exact conclusion_context_reachable|]. split; [reflexivity|].
  pose proof conclusion_checks as H. pose proof conclusion_conditions as [C1 C2]. revert H C1 C2. generalize (c_snap conclusion_context). intros s H C1 C2.
  unfold conclusion_checked in H. do 9 (apply andb_prop in H; destruct H as [H ?]).
  assert (Bt : built_in s 14 CTrue).
  { revert H7. unfold built_in_of. destruct (lookup s 14) as [o|] eqn:L; [|discriminate]. destruct (c_spec o) as [cc| |] eqn:Sp; try discriminate.
    destruct cc; try discriminate. intros _. exists o. auto. }
  pose proof (ends_ok _ _ H H6) as E57. pose proof (ends_ok _ _ H H5) as E65. cbn in E57, E65.
  assert (F60 : follows s 60).
  { apply (Follows s 60 57).
    - apply constant_ok. assumption.
    - apply conditions_ok. rewrite C1. now left.
    - left. split; [eauto|]. exists 14. split; [exact Bt|]. apply reduction_of_reduces, opt_is_eq. assumption.
    - intros y Y. apply conditions_ok in Y. rewrite C1 in Y. destruct Y as [<-|[<-|[]]]; left; eauto. }
  split; [intros n w _ G; exact (unnamed_variables_ok _ H n w G)|]. split; [exact Bt|]. split; [apply settled_ok; assumption|]. split.
  - split; [exact F60|]. apply (circle_word_ok _ _ _ [59]). assumption.
  - split; [|apply (circle_word_ok _ _ _ [68]); assumption]. apply (Follows s 69 60).
    + apply constant_ok. assumption.
    + apply conditions_ok. rewrite C2. now left.
    + right. exact F60.
    + intros y Y. apply conditions_ok in Y. rewrite C2 in Y. destruct Y as [<-|[]]; right; exact F60.
Qed.
Example C80_example_answers : texts_b (run_session cfg0 fuel0 (map txt ["d"; "b"; "a"; "c"]) conclusion_context) (map txt ["true"; "true"; "true"; "e"]) = true.
Proof. vm_compute. reflexivity. Qed.

(** C80: `a` is answered true and so is `a => b`, but `b` is not: only one reduction of the condition is looked at
    (zia/src/context_search.rs:121-123). *)
Definition unseen_check (c : ctx) : bool :=
  texts_b (run_session cfg0 fuel0 [txt "a"] c) [txt "true"] && texts_b (run_session cfg0 fuel0 [txt "a => b"] c) [txt "true"] &&
  texts_b (run_session cfg0 fuel0 [txt "b"] c) [txt "b"].
Theorem C80_conclusions_are_missed_refuted : exists c rs,
  run_session cfg0 fuel0 (map txt ["let ((a => b) -> true)"; "let (a -> c)"; "let (c -> true)"]) base_context = Ok (rs, c) /\ rs = [[]; []; []] /\
  (exists c1, run_session cfg0 fuel0 [txt "a"] c = Ok ([txt "true"], c1)) /\
  (exists c1, run_session cfg0 fuel0 [txt "a => b"] c = Ok ([txt "true"], c1)) /\
  (exists c1, run_session cfg0 fuel0 [txt "b"] c = Ok ([txt "b"], c1)).
Proof.
  assert (H : match run_session cfg0 fuel0 (map txt ["let ((a => b) -> true)"; "let (a -> c)"; "let (c -> true)"]) base_context with
              | Ok ([[]; []; []], c) => unseen_check c | _ => false end = true) by (vm_compute; reflexivity).
  destruct (run_session cfg0 fuel0 (map txt ["let ((a => b) -> true)"; "let (a -> c)"; "let (c -> true)"]) base_context) as [[rs c]| | |]; try discriminate H.
  destruct rs as [|[|] [|[|] [|[|] [|]]]]; try discriminate H. exists c, [[]; []; []]. unfold unseen_check in H.
  apply andb_prop in H. destruct H as [H H3]. apply andb_prop in H. destruct H as [H1 H2].
  split; [reflexivity|]. split; [reflexivity|]. split; [exact (texts_ok _ _ H1)|]. split; [exact (texts_ok _ _ H2)|exact (texts_ok _ _ H3)].
Qed.
Print Assumptions C80_conclusions_are_missed_refuted.
