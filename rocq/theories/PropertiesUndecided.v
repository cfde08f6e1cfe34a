(** C58, C80 and C24: what a symbol is answered with, next to implications. *)
From Verif Require Import Lexer LexerSpec Start Snapshot Search Context StoreSpec StoreInv MapFacts AstSpec AstFacts StoreFacts RangeFacts History
  StoreLaws OneName NameSpec Names Displays SearchCaches Existence Wide Matches Implications Asking Links Keyed Sample Witness
  NameWitness Frames PropertiesAsking Shapes Unruled Answers Replies PropertiesAnswers Circular PropertiesCircular Concluded
  PropertiesConcluded Undecided.
From Coq Require Import String List Bool PeanoNat Relations.
Import ListNotations.
Local Open Scope string_scope.

Section Session.
  Variables (b : bool) (cfg : config) (fuel : nat) (c0 : ctx).
  Hypothesis F : fair cfg.
  Hypothesis D : dbg cfg = b.
  Hypothesis R : reachable_with b (links_safe b) c0.
  Hypothesis ON : operators_named (c_snap c0).
  Variable bad : nat -> Prop.
  Hypothesis BP : forall k, bad k -> ~ passive (c_snap c0) k.
  Notation calmly := (calmly cfg (c_snap c0) fuel (fun _ _ => True) bad).
  Lemma calm_session symbols names :
    Forall2 (fun w v => exists k z, means (c_snap c0) w k /\ settles (c_snap c0) k z v) symbols names ->
    forall c answers c', calmly c -> reachable b c -> run_session cfg fuel symbols c = Ok (answers, c') ->
    answers = names /\ calmly c' /\ reachable b c'.
  Proof.
    pose proof (reachable_without _ _ _ R) as R0.
    pose proof (sane_numbers _ (ready_sane _ (reachable_ready b c0 R0))) as N.
    destruct (links_agree_reachable b c0 R) as (LC & LR & UC).
    destruct (reachable_built_in b c0 R0 CLabel) as (lab & BL & _ & UL & _ & _ & CI).
    destruct (reachable_built_in b c0 R0 CImplication) as (imp & BM & _ & UM & _ & _ & CM).
    assert (UL' : forall x y, built_in (c_snap c0) x CLabel -> built_in (c_snap c0) y CLabel -> x = y).
    { intros y z Y Z. rewrite (UL y Y), (UL z Z). reflexivity. }
    assert (BI : forall cc y, concrete_concept_id cfg (c_snap c0) delta_default cc = Ok (Some y) -> is_built_in (c_snap c0) y cc).
    { intros cc y X. destruct (reachable_built_in b c0 R0 cc) as (n & B & _ & _ & _ & _ & CI').
      rewrite (concrete_id_plain _ _ _ F) in X. rewrite (concrete_id_plain _ _ _ fair0) in CI'.
      rewrite X in CI'. injection CI' as ->. exists n. auto. }
    rewrite (concrete_id_plain cfg0 _ _ fair0) in CI. rewrite <- (concrete_id_plain cfg _ _ F) in CI.
    rewrite (concrete_id_plain cfg0 _ _ fair0) in CM. rewrite <- (concrete_id_plain cfg _ _ F) in CM.
    pose proof (reachable_keyed b c0 R0) as HK.
    induction 1 as [|w v symbols names (k & z & Me & En) _ IH]; intros c answers c' H Rc E.
    - injection E as <- <-. auto.
    - cbn [run_session] in E. apply obind_ok in E. destruct E as ([a c1] & E1 & E). apply obind_ok in E.
      destruct E as ([rs c2] & E2 & [= <- <-]).
      pose proof (reach_execute b cfg fuel _ _ _ _ F D Rc E1) as R1.
      destruct (calm_executed cfg (c_snap c0) fuel F N LC LR UL' lab CI BL BI ON imp CM BM HK _ bad BP _ _ _ _ _ _ _ (reachable_ready b c Rc) En Me H E1)
        as (-> & S1 & D1 & G1).
      destruct (IH c1 rs c2) as (-> & H2); [|exact R1|exact E2|auto].
      split; [exact S1|]. split; [exact D1|]. split; [apply (reachable_ready b c1 R1)|exact G1].
  Qed.
  Lemma calm_start : c_cache c0 = empty_cache -> calmly c0.
  Proof.
    intros K. pose proof (reachable_without _ _ _ R) as R0. split; [reflexivity|]. split; [apply (reachable_ready b c0 R0)|].
    split; [apply (reachable_ready b c0 R0)|]. rewrite K. apply calm_empty.
  Qed.
End Session.

(** As [C58_chains_are_followed], but the symbols asked for and those on the way may also be conclusions of implications,
    as long as no condition of theirs is declared to be true or follows from something declared to be true: such implications
    change no answer.  For every number of questions, every history in
    which no composition is replaced or removed, every hash order, every amount of fuel and both build modes. *)
Theorem C58_chains_are_followed_beside_implications b cfg fuel c symbols names answers c' :
  fair cfg -> dbg cfg = b -> reachable_with b (links_safe b) c -> c_cache c = empty_cache ->
  operators_named (c_snap c) ->
  Forall2 (fun w v => exists k z, means (c_snap c) w k /\ settles (c_snap c) k z v) symbols names ->
  run_session cfg fuel symbols c = Ok (answers, c') -> answers = names /\ c_snap c' = c_snap c.
Proof.
  intros F D R K ON Q E.
  destruct (calm_session b cfg fuel c F D R ON (fun _ => False) (fun _ X _ => X) _ _ Q _ _ _ (calm_start b cfg fuel c R _ K)
    (reachable_without _ _ _ R) E) as (A & H & _).
  split; [exact A|]. apply H.
Qed.
Print Assumptions C58_chains_are_followed_beside_implications.

(** As [C80_conclusions_are_true_partial], after any number of such questions, the other conditions may be conclusions
    too, whether they follow or not, and a symbol that is declared to reduce to what follows is answered true as well.  Missing
    from C80: the same as there. *)
Theorem C80_conclusions_are_true_later_partial b cfg fuel c symbols names answers c1 t yes k w answer c' :
  fair cfg -> dbg cfg = b -> reachable_with b (links_safe b) c -> c_cache c = empty_cache ->
  operators_named (c_snap c) -> built_in (c_snap c) t CTrue -> settled_symbol (c_snap c) t yes ->
  Forall2 (fun w v => exists k z, means (c_snap c) w k /\ settles (c_snap c) k z v) symbols names ->
  run_session cfg fuel symbols c = Ok (answers, c1) ->
  comes_true (c_snap c) k -> means (c_snap c) w k -> goes_by (c_snap c) k w -> is_variable_text w = false ->
  execute cfg fuel w c1 = Ok (answer, c') -> answers = names /\ answer = yes /\ c_snap c' = c_snap c.
Proof.
  intros F D R K ON BT ST Q E1 Fo Me G V E.
  destruct (calm_session b cfg fuel c F D R ON (holds (c_snap c)) (passive_not_holds (c_snap c)) _ _ Q _ _ _ (calm_start b cfg fuel c R _ K)
    (reachable_without _ _ _ R) E1) as (A & H & R1).
  split; [exact A|]. pose proof (reachable_without _ _ _ R) as R0.
  pose proof (sane_numbers _ (ready_sane _ (reachable_ready b c R0))) as N.
  destruct (links_agree_reachable b c R) as (LC & LR & UC).
  destruct (reachable_built_in b c R0 CLabel) as (lab & BL & _ & UL & _ & _ & CI).
  destruct (reachable_built_in b c R0 CImplication) as (imp & BM & _ & UM & _ & _ & CM).
  destruct (reachable_built_in b c R0 CTrue) as (t' & _ & _ & UT & _).
  rewrite (concrete_id_plain cfg0 _ _ fair0) in CI. rewrite <- (concrete_id_plain cfg _ _ F) in CI.
  rewrite (concrete_id_plain cfg0 _ _ fair0) in CM. rewrite <- (concrete_id_plain cfg _ _ F) in CM.
  assert (UL' : forall x y, built_in (c_snap c) x CLabel -> built_in (c_snap c) y CLabel -> x = y).
  { intros y z Y Z. rewrite (UL y Y), (UL z Z). reflexivity. }
  assert (UT' : forall x, built_in (c_snap c) x CTrue -> x = t).
  { intros x X. rewrite (UT x X), (UT t BT). reflexivity. }
  assert (BI : forall cc y, concrete_concept_id cfg (c_snap c) delta_default cc = Ok (Some y) -> is_built_in (c_snap c) y cc).
  { intros cc y X. destruct (reachable_built_in b c R0 cc) as (n & B & _ & _ & _ & _ & CI').
    rewrite (concrete_id_plain _ _ _ F) in X. rewrite (concrete_id_plain _ _ _ fair0) in CI'.
    rewrite X in CI'. injection CI' as ->. exists n. auto. }
  exact (comes_executed cfg (c_snap c) fuel F N LC LR UL' lab CI BL BI ON imp CM UM BM (reachable_keyed b c R0) (fun _ _ => True)
    (holds (c_snap c)) (passive_not_holds (c_snap c)) (fun _ X => X) t yes BT UT' ST k w c1 answer c' (reachable_ready b c1 R1) Fo Me G V H E).
Qed.
Print Assumptions C80_conclusions_are_true_later_partial.

(** As [C24_circular_implications_are_never_answered], after any number of such questions; the symbols of the circle may also be
    implied by others from which nothing follows, and a symbol that is declared to reduce to one of the circle is never answered
    either. *)
Theorem C24_circular_implications_are_never_answered_later b cfg fuel c symbols names answers c1 S k w answer c' :
  fair cfg -> dbg cfg = b -> reachable_with b (links_safe b) c -> c_cache c = empty_cache ->
  operators_named (c_snap c) ->
  Forall2 (fun w v => exists k z, means (c_snap c) w k /\ settles (c_snap c) k z v) symbols names ->
  run_session cfg fuel symbols c = Ok (answers, c1) ->
  trap (c_snap c) S -> trapped (c_snap c) S k -> means (c_snap c) w k -> goes_by (c_snap c) k w -> is_variable_text w = false ->
  execute cfg fuel w c1 <> Ok (answer, c').
Proof.
  intros F D R K ON Q E1 Tr Fo Me G V.
  destruct (calm_session b cfg fuel c F D R ON S (trap_not_passive (c_snap c) S Tr) _ _ Q _ _ _ (calm_start b cfg fuel c R _ K)
    (reachable_without _ _ _ R) E1) as (_ & H & R1).
  pose proof (reachable_without _ _ _ R) as R0.
  pose proof (sane_numbers _ (ready_sane _ (reachable_ready b c R0))) as N.
  destruct (links_agree_reachable b c R) as (LC & LR & UC).
  destruct (reachable_built_in b c R0 CLabel) as (lab & BL & _ & UL & _ & _ & CI).
  destruct (reachable_built_in b c R0 CImplication) as (imp & BM & _ & UM & _ & _ & CM).
  rewrite (concrete_id_plain cfg0 _ _ fair0) in CI. rewrite <- (concrete_id_plain cfg _ _ F) in CI.
  rewrite (concrete_id_plain cfg0 _ _ fair0) in CM. rewrite <- (concrete_id_plain cfg _ _ F) in CM.
  assert (UL' : forall x y, built_in (c_snap c) x CLabel -> built_in (c_snap c) y CLabel -> x = y).
  { intros y z Y Z. rewrite (UL y Y), (UL z Z). reflexivity. }
  assert (BI : forall cc y, concrete_concept_id cfg (c_snap c) delta_default cc = Ok (Some y) -> is_built_in (c_snap c) y cc).
  { intros cc y X. destruct (reachable_built_in b c R0 cc) as (n & B & _ & _ & _ & _ & CI').
    rewrite (concrete_id_plain _ _ _ F) in X. rewrite (concrete_id_plain _ _ _ fair0) in CI'.
    rewrite X in CI'. injection CI' as ->. exists n. auto. }
  eapply (trap_executed cfg (c_snap c) fuel F N LC LR); eauto using trap_not_passive, reachable_keyed, reachable_ready.
Qed.
Print Assumptions C24_circular_implications_are_never_answered_later.

(** ** The hypotheses are met *)
(** `a`, which is false, and `c`, which is `e`, imply `b`, which implies `f`; `h` is `f`, which is `b`. *)
Definition undecided_commands : list text := map txt
  ["let ((p => (q -> r)) -> true)"; "let ((a => b) -> true)"; "let ((c => b) -> true)"; "let ((b => f) -> true)";
   "let (c -> e)"; "let (a -> false)"; "let (f -> b)"; "let (h -> f)"].
Definition undecided_context : ctx :=
  Eval vm_compute in match run_safely cfg0 fuel0 undecided_commands base_context with Some c => c | _ => default_ctx end.
Lemma undecided_context_eq : run_safely cfg0 fuel0 undecided_commands base_context = Some undecided_context.
Proof. vm_compute. reflexivity. Qed.
Lemma undecided_context_reachable : reachable_with true (links_safe true) undecided_context.
Proof.
  exact (run_safely_reachable cfg0 fuel0 undecided_commands fair0 base_context undecided_context (reach_with_base _ _) undecided_context_eq).
Qed.
Definition untrue_b (s : snapshot) (n : nat) : bool :=
  match reduction_of s n with
  | Some q => match built_in_of s q with Some CTrue => false | _ => true end
  | None => true
  end.
Lemma untrue_ok s n : untrue_b s n = true -> untrue s n.
Proof.
  unfold untrue_b. intros H t (o & L & Sp) Re. apply reduction_of_reduces in Re. rewrite Re in H.
  unfold built_in_of in H. rewrite L, Sp in H. discriminate.
Qed.
Definition undecided_checked (s : snapshot) : bool :=
  unnamed_variables_b s && ends_b s [(57, txt "a"); (17, txt "false")] && ends_b s [(65, txt "c"); (74, txt "e")] &&
  untrue_b s 57 && untrue_b s 65 && untrue_b s 60 &&
  constant_b s 60 && settled_b s 60 (txt "b") && constant_b s 69 && settled_b s 69 (txt "f") &&
  constant_b s 77 && settled_b s 77 (txt "h") &&
  opt_is (reduction_of s 69) 60 && opt_is (reduction_of s 77) 69 && (match reduction_of s 60 with None => true | _ => false end) &&
  means_b s (txt "b") 60 [59] && means_b s (txt "f") 69 [68] && means_b s (txt "h") 77 [76] && means_b s (txt "a") 57 [56].
Lemma undecided_checks : undecided_checked (c_snap undecided_context) = true.
Proof. vm_compute. reflexivity. Qed.
Lemma undecided_conditions :
  conditions (c_snap undecided_context) 60 = [57; 65] /\ conditions (c_snap undecided_context) 69 = [60] /\ conditions (c_snap undecided_context) 77 = [].
Proof. vm_compute. repeat split; reflexivity. Qed.
Example C58_beside_implications_example : let s := c_snap undecided_context in
  reachable_with true (links_safe true) undecided_context /\ c_cache undecided_context = empty_cache /\ operators_named s /\
  Forall2 (fun w v => exists k z, means s w k /\ settles s k z v)
    (map txt ["h"; "f"; "a"; "b"; "h"]) (map txt ["b"; "b"; "false"; "b"; "b"]).
Proof.
  split; [exact undecided_context_reachable|]. split; [reflexivity|].
  pose proof undecided_checks as H. pose proof undecided_conditions as (C1 & C2 & C3). revert H C1 C2 C3. generalize (c_snap undecided_context). intros s H C1 C2 C3.
  unfold undecided_checked in H. do 18 (apply andb_prop in H; destruct H as [H ?]).
  split; [intros n w _ G; exact (unnamed_variables_ok _ H n w G)|].
  pose proof (ends_settles s _ _ _ (ends_ok _ _ H H17)) as E57. pose proof (ends_settles s _ _ _ (ends_ok _ _ H H16)) as E65. cbn in E57, E65.
  assert (U60 : settles s 60 60 (txt "b")).
  { assert (Nr : forall q, ~ reduces s 60 q) by (intros q Re; apply reduction_of_reduces in Re; rewrite Re in *; discriminate).
    apply SettlesHere; [|apply settled_ok; assumption|exact Nr].
    apply (PassiveSymbol s 60 (txt "b")); [apply settled_ok; assumption|apply constant_ok; assumption| |intros q Re; destruct (Nr _ Re)].
    intros x X. apply conditions_ok in X. rewrite C1 in X.
    destruct X as [<-|[<-|[]]]; (split; [apply untrue_ok; assumption|eapply settles_passive; eassumption]). }
  assert (El : forall k q z v, opt_is (reduction_of s k) q = true -> settles s q z v -> forall q', reduces s k q' -> elementary s q').
  { intros k q z v O Se q' Re. apply opt_is_eq in O. apply reduction_of_reduces in Re. assert (q' = q) as -> by congruence.
    exact (passive_elementary s _ (settles_passive s _ _ _ Se)). }
  assert (U69 : settles s 69 60 (txt "b")).
  { apply (SettlesLater s 69 60); [|apply reduction_of_reduces, opt_is_eq; assumption|exact U60].
    apply (PassiveSymbol s 69 (txt "f")); [apply settled_ok; assumption|apply constant_ok; assumption| |eapply El; eassumption].
    intros x X. apply conditions_ok in X. rewrite C2 in X. destruct X as [<-|[]]. split; [apply untrue_ok; assumption|eapply settles_passive; eassumption]. }
  assert (U77 : settles s 77 60 (txt "b")).
  { apply (SettlesLater s 77 69); [|apply reduction_of_reduces, opt_is_eq; assumption|exact U69].
    apply (PassiveSymbol s 77 (txt "h")); [apply settled_ok; assumption|apply constant_ok; assumption| |eapply El; eassumption].
    intros x X. apply conditions_ok in X. rewrite C3 in X. destruct X. }
  cbn [map]. constructor; [|constructor; [|constructor; [|constructor; [|constructor; [|constructor]]]]].
  - exists 77, 60. split; [apply (means_ok _ _ _ [76]); assumption|exact U77].
  - exists 69, 60. split; [apply (means_ok _ _ _ [68]); assumption|exact U69].
  - exists 57, 17. split; [apply (means_ok _ _ _ [56]); assumption|exact E57].
  - exists 60, 60. split; [apply (means_ok _ _ _ [59]); assumption|exact U60].
  - exists 77, 60. split; [apply (means_ok _ _ _ [76]); assumption|exact U77].
Qed.
Example C58_beside_implications_answers :
  texts_b (run_session cfg0 fuel0 (map txt ["h"; "f"; "a"; "b"; "h"]) undecided_context) (map txt ["b"; "b"; "false"; "b"; "b"]) = true.
Proof. vm_compute. reflexivity. Qed.
(** `d` is implied by `b`, which does not follow from `a`, and by `g`, which is true; `e` is `d`. *)
Definition holding_commands : list text := map txt
  ["let ((p => (q -> r)) -> true)"; "let ((a => b) -> true)"; "let ((b => d) -> true)"; "let ((g => d) -> true)"; "let (g -> true)";
   "let (e -> d)"].
Definition holding_context : ctx :=
  Eval vm_compute in match run_safely cfg0 fuel0 holding_commands base_context with Some c => c | _ => default_ctx end.
Lemma holding_context_eq : run_safely cfg0 fuel0 holding_commands base_context = Some holding_context.
Proof. vm_compute. reflexivity. Qed.
Lemma holding_context_reachable : reachable_with true (links_safe true) holding_context.
Proof.
  exact (run_safely_reachable cfg0 fuel0 holding_commands fair0 base_context holding_context (reach_with_base _ _) holding_context_eq).
Qed.
Definition holding_checked (s : snapshot) : bool :=
  unnamed_variables_b s && settled_b s 14 (txt "true") && (match built_in_of s 14 with Some CTrue => true | _ => false end) &&
  ends_b s [(57, txt "a")] && ends_b s [(70, txt "g"); (14, txt "true")] && untrue_b s 57 && opt_is (reduction_of s 70) 14 &&
  constant_b s 60 && settled_b s 60 (txt "b") && (match reduction_of s 60 with None => true | _ => false end) &&
  constant_b s 65 && circle_word_b s (txt "d", 65, [64]) && constant_b s 74 && settled_b s 74 (txt "e") && opt_is (reduction_of s 74) 65 &&
  circle_word_b s (txt "e", 74, [73]) && means_b s (txt "b") 60 [59] && means_b s (txt "g") 70 [69].
Lemma holding_checks : holding_checked (c_snap holding_context) = true.
Proof. vm_compute. reflexivity. Qed.
Lemma holding_conditions :
  conditions (c_snap holding_context) 60 = [57] /\ conditions (c_snap holding_context) 65 = [60; 70] /\ conditions (c_snap holding_context) 74 = [].
Proof. vm_compute. repeat split; reflexivity. Qed.
Example C80_later_example : let s := c_snap holding_context in
  reachable_with true (links_safe true) holding_context /\ c_cache holding_context = empty_cache /\
  operators_named s /\ built_in s 14 CTrue /\ settled_symbol s 14 (txt "true") /\
  Forall2 (fun w v => exists k z, means s w k /\ settles s k z v) (map txt ["b"; "g"; "b"]) (map txt ["b"; "true"; "b"]) /\
  (comes_true s 65 /\ means s (txt "d") 65 /\ goes_by s 65 (txt "d") /\ is_variable_text (txt "d") = false) /\
  (comes_true s 74 /\ means s (txt "e") 74 /\ goes_by s 74 (txt "e") /\ is_variable_text (txt "e") = false).
Proof.
  split; [exact holding_context_reachable|]. split; [reflexivity|].
  pose proof holding_checks as H. pose proof holding_conditions as (C1 & C2 & C3). revert H C1 C2 C3. generalize (c_snap holding_context). intros s H C1 C2 C3.
  unfold holding_checked in H. do 17 (apply andb_prop in H; destruct H as [H ?]).
  assert (Bt : built_in s 14 CTrue).
  { revert H15. unfold built_in_of. destruct (lookup s 14) as [o|] eqn:L; [|discriminate]. destruct (c_spec o) as [cc| |] eqn:Sp; try discriminate.
    destruct cc; try discriminate. intros _. exists o. auto. }
  pose proof (ends_settles s _ _ _ (ends_ok _ _ H H14)) as E57. pose proof (ends_settles s _ _ _ (ends_ok _ _ H H13)) as E70. cbn in E57, E70.
  assert (E60 : settles s 60 60 (txt "b")).
  { assert (Nr : forall q, ~ reduces s 60 q) by (intros q Re; apply reduction_of_reduces in Re; rewrite Re in *; discriminate).
    apply SettlesHere; [|apply settled_ok; assumption|exact Nr].
    apply (PassiveSymbol s 60 (txt "b")); [apply settled_ok; assumption|apply constant_ok; assumption| |intros q Re; destruct (Nr _ Re)].
    intros x X. apply conditions_ok in X. rewrite C1 in X. destruct X as [<-|[]]. split; [apply untrue_ok; assumption|eapply settles_passive; eassumption]. }
  split; [intros n w _ G; exact (unnamed_variables_ok _ H n w G)|]. split; [exact Bt|]. split; [apply settled_ok; assumption|]. split.
  { cbn [map]. constructor; [|constructor; [|constructor; [|constructor]]].
    - exists 60, 60. split; [apply (means_ok _ _ _ [59]); assumption|exact E60].
    - exists 70, 14. split; [apply (means_ok _ _ _ [69]); assumption|exact E70].
    - exists 60, 60. split; [apply (means_ok _ _ _ [59]); assumption|exact E60]. }
  assert (H65 : holds s 65).
  { apply (Holds s 65 70).
    - apply constant_ok. assumption.
    - apply conditions_ok. rewrite C2. right. now left.
    - left. exists 14. split; [exact Bt|]. apply reduction_of_reduces, opt_is_eq. assumption.
    - intros y Y. apply conditions_ok in Y. rewrite C2 in Y. destruct Y as [<-|[<-|[]]]; left; eapply settles_passive; eassumption. }
  split; (split; [|eapply circle_word_ok; eassumption]); [now apply ComesFollowing|].
  apply (ComesLater s 74 65); [|apply reduction_of_reduces, opt_is_eq; assumption|now apply ComesFollowing].
  apply (PassiveSymbol s 74 (txt "e")); [apply settled_ok; assumption|apply constant_ok; assumption| |].
  - intros x X. apply conditions_ok in X. rewrite C3 in X. destruct X.
  - intros q Re. apply reduction_of_reduces in Re. assert (Q : reduction_of s 74 = Some 65) by (apply opt_is_eq; assumption).
    assert (q = 65) as -> by congruence. exact (holds_elementary s _ H65).
Qed.
Example C80_later_answers :
  texts_b (run_session cfg0 fuel0 (map txt ["b"; "g"; "b"; "e"]) holding_context) (map txt ["b"; "true"; "b"; "true"]) = true.
Proof. vm_compute. reflexivity. Qed.
(** `a` and `b` imply each other, `c`, which is `e`, implies `b`, and `d` is `a`. *)
Definition trap_commands : list text := map txt
  ["let ((p => (q -> r)) -> true)"; "let ((a => b) -> true)"; "let ((c => b) -> true)"; "let (c -> e)"; "let (d -> a)";
   "let ((b => a) -> true)"].
Definition trap_context : ctx :=
  Eval vm_compute in match run_safely cfg0 fuel0 trap_commands base_context with Some c => c | _ => default_ctx end.
Lemma trap_context_eq : run_safely cfg0 fuel0 trap_commands base_context = Some trap_context.
Proof. vm_compute. reflexivity. Qed.
Lemma trap_context_reachable : reachable_with true (links_safe true) trap_context.
Proof. exact (run_safely_reachable cfg0 fuel0 trap_commands fair0 base_context trap_context (reach_with_base _ _) trap_context_eq). Qed.
Definition trap_checked (s : snapshot) : bool :=
  unnamed_variables_b s && ends_b s [(65, txt "c"); (69, txt "e")] && untrue_b s 65 && constant_b s 57 && constant_b s 60 &&
  constant_b s 72 && settled_b s 72 (txt "d") && opt_is (reduction_of s 72) 57 && circle_word_b s (txt "b", 60, [59]) &&
  circle_word_b s (txt "d", 72, [71]) && means_b s (txt "c") 65 [64].
Lemma trap_checks : trap_checked (c_snap trap_context) = true.
Proof. vm_compute. reflexivity. Qed.
Lemma trap_conditions : conditions (c_snap trap_context) 57 = [60] /\ conditions (c_snap trap_context) 60 = [57; 65] /\
  conditions (c_snap trap_context) 72 = [].
Proof. vm_compute. repeat split; reflexivity. Qed.
Example C24_later_example : let s := c_snap trap_context in let S := fun k => k = 57 \/ k = 60 in
  reachable_with true (links_safe true) trap_context /\ c_cache trap_context = empty_cache /\ operators_named s /\
  Forall2 (fun w v => exists k z, means s w k /\ settles s k z v) (map txt ["c"; "c"]) (map txt ["e"; "e"]) /\ trap s S /\
  (trapped s S 60 /\ means s (txt "b") 60 /\ goes_by s 60 (txt "b") /\ is_variable_text (txt "b") = false) /\
  (trapped s S 72 /\ means s (txt "d") 72 /\ goes_by s 72 (txt "d") /\ is_variable_text (txt "d") = false).
Proof.
  cbv zeta. split; [exact trap_context_reachable|]. split; [reflexivity|].
  pose proof trap_checks as H. pose proof trap_conditions as (C1 & C2 & C3). revert H C1 C2 C3. generalize (c_snap trap_context). intros s H C1 C2 C3.
  unfold trap_checked in H. do 10 (apply andb_prop in H; destruct H as [H ?]).
  split; [intros n w _ G; exact (unnamed_variables_ok _ H n w G)|].
  pose proof (ends_settles s _ _ _ (ends_ok _ _ H H9)) as E65. cbn in E65.
  assert (Q : exists k z, means s (txt "c") k /\ settles s k z (txt "e")).
  { exists 65, 69. split; [apply (means_ok _ _ _ [64]); assumption|exact E65]. }
  split; [cbn [map]; repeat (constructor; [exact Q|]); constructor|]. split.
  { intros k [-> | ->]; (split; [apply constant_ok; assumption|]); (split; [|intros x X; apply conditions_ok in X]).
    - exists 60. split; [apply conditions_ok; rewrite C1; now left|now right].
    - rewrite C1 in X. destruct X as [<-|[]]. left. now right.
    - exists 57. split; [apply conditions_ok; rewrite C2; now left|now left].
    - rewrite C2 in X. destruct X as [<-|[<-|[]]]; [left; now left|]. right. split; [apply untrue_ok; assumption|eapply settles_passive; eassumption]. }
  split; (split; [|eapply circle_word_ok; eassumption]); [apply TrappedHere; now right|].
  apply (TrappedLater s _ 72 57); [|apply reduction_of_reduces, opt_is_eq; assumption|apply TrappedHere; now left].
  apply (PassiveSymbol s 72 (txt "d")); [apply settled_ok; assumption|apply constant_ok; assumption| |].
  - intros x X. apply conditions_ok in X. rewrite C3 in X. destruct X.
  - intros q Re. apply reduction_of_reduces in Re. assert (Q' : reduction_of s 72 = Some 57) by (apply opt_is_eq; assumption).
    assert (q = 57) as -> by congruence. right. apply constant_ok. assumption.
Qed.
Example C24_later_answers :
  texts_b (run_session cfg0 fuel0 (map txt ["c"; "c"]) trap_context) (map txt ["e"; "e"]) = true.
Proof. vm_compute. reflexivity. Qed.
