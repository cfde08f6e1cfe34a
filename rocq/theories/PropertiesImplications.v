(** C57: when an implication is used. *)
From Verif Require Import Start Snapshot Search Context StoreSpec MapFacts AstFacts StoreFacts StoreInv RangeFacts History
  StoreLaws OneName SearchCaches Earned CacheLife Links Sample Witness PropertiesRepeat Implications.
From Coq Require Import String List Bool PeanoNat.
Import ListNotations.
Local Open Scope string_scope.

(** Full statement: a concept is taken to reduce to something because of an implication only if the
    implication is known to be true and its condition evaluates to true.
    Proved: whenever a command has been run and has recorded nothing but variables, every reduction in the
    cache that is put down to an implication is [implied] (Implications.v).  That is, either some concept
    known to be true is an example of the rule [cond => (t -> r)] and its condition evaluates to true; or
    the store has a pair [cond => k] for the concept [k] and one step of evaluation leads from [cond] to
    true.  The same is true of every inference in the cache.
    Missing: in the second case the pair need not be known to be true
    ([C57_false_implication_used_refuted]). *)
Theorem C57_conditions_are_true_partial b cfg fuel c q z c1 :
  fair cfg -> reachable_with b (links_safe b) c -> settled cfg fuel c ->
  run_command cfg fuel q c = Ok (z, c1) -> widens delta_default (c_delta c1) ->
  (forall k r i why, In (k, Some (r, RInference i why)) (k_red (c_cache c1)) ->
     exists x, snd k = Some x /\ implied cfg (c_snap c1) fuel (c_delta c1) x r) /\
  (forall x r why, In (x, Some (r, why)) (k_inf (c_cache c1)) ->
     implied cfg (c_snap c1) fuel (c_delta c1) x r).
Proof.
  intros F R S E W. destruct (C36_cached_answers_were_computed_partial _ _ _ _ _ _ F S E) as (Sn & H1 & _ & H3).
  destruct (settled_ready _ _ _ F S) as [Rd _]. pose proof (sane_numbers _ (ready_sane _ Rd)) as N.
  destruct (links_agree_reachable b c R) as (_ & LR & _).
  assert (BI : forall cc y, concrete_concept_id cfg (c_snap c) delta_default cc = Ok (Some y) ->
             exists n, y = Committed n /\ built_in (c_snap c) n cc).
  { intros cc y X. destruct (reachable_built_in b c (reachable_without _ _ _ R) cc) as (n & B & _ & _ & _ & _ & CI).
    rewrite (concrete_id_plain _ _ _ F) in X. rewrite (concrete_id_plain _ _ _ fair0) in CI.
    rewrite X in CI. injection CI as ->. eauto. }
  rewrite Sn in *. split.
  - intros k r i why K. apply H1 in K. exact (key_implied cfg (c_snap c) fuel _ F N W LR BI _ _ _ _ _ K).
  - intros x r why K. apply H3 in K. exact (earned_implied cfg (c_snap c) fuel _ F N W BI x r why K).
Qed.
Print Assumptions C57_conditions_are_true_partial.

(** One step of evaluation, in any state of a search whose caches were filled by the evaluator. *)
Theorem C57_steps_by_implication_partial b cfg fuel c d n e t s r i why s' :
  fair cfg -> reachable_with b (links_safe b) c -> widens delta_default d ->
  placed d e -> earned_state cfg (c_snap c) fuel d s ->
  o_reduce (search cfg (c_snap c) fuel n) e t s = Ok (Some (r, RInference i why), s') ->
  exists x, t_concept t = Some x /\ implied cfg (c_snap c) fuel d x r.
Proof.
  intros F R W P H E. pose proof (sane_numbers _ (ready_sane _ (reachable_ready b c (reachable_without _ _ _ R)))) as N.
  destruct (links_agree_reachable b c R) as (_ & LR & _).
  assert (BI : forall cc y, concrete_concept_id cfg (c_snap c) delta_default cc = Ok (Some y) ->
             exists n, y = Committed n /\ built_in (c_snap c) n cc).
  { intros cc y X. destruct (reachable_built_in b c (reachable_without _ _ _ R) cc) as (m & B & _ & _ & _ & _ & CI).
    rewrite (concrete_id_plain _ _ _ F) in X. rewrite (concrete_id_plain _ _ _ fair0) in CI.
    rewrite X in CI. injection CI as ->. eauto. }
  exact (reduction_implied cfg (c_snap c) fuel d F N W LR BI n e t s r i why s' P H E).
Qed.
Print Assumptions C57_steps_by_implication_partial.

(** ** Cases *)
Definition rule_commands : list text := map txt ["let ((a => (b -> c)) -> true)"; "let (a -> true)"].
Definition rule_context : ctx :=
  Eval vm_compute in match run_safely cfg0 fuel0 rule_commands base_context with Some c => c | _ => default_ctx end.
Definition false_commands : list text := map txt ["let ((a => b) -> false)"; "let (a -> true)"].
Definition false_context : ctx :=
  Eval vm_compute in match run_safely cfg0 fuel0 false_commands base_context with Some c => c | _ => default_ctx end.
Lemma rule_context_eq : run_safely cfg0 fuel0 rule_commands base_context = Some rule_context.
Proof. vm_compute. reflexivity. Qed.
Lemma false_context_eq : run_safely cfg0 fuel0 false_commands base_context = Some false_context.
Proof. vm_compute. reflexivity. Qed.
Lemma rule_context_reachable : reachable_with true (links_safe true) rule_context.
Proof.
  exact (run_safely_reachable cfg0 fuel0 rule_commands fair0 base_context rule_context (reach_with_base _ _) rule_context_eq).
Qed.
Lemma false_context_reachable : reachable_with true (links_safe true) false_context.
Proof.
  exact (run_safely_reachable cfg0 fuel0 false_commands fair0 base_context false_context (reach_with_base _ _) false_context_eq).
Qed.
Lemma settled_now b c : reachable_with b (links_safe b) c -> c_cache c = empty_cache -> settled cfg0 fuel0 c.
Proof. intros R E. apply SettledStart; [exact (reachable_ready b c (reachable_without _ _ _ R))|exact E]. Qed.

(** Running the command `b` leaves no change, and a reduction by implication to the text [w] in the cache. *)
Definition puts_down (r : outcome (zres text * ctx)) (x : cid) (w : text) : bool :=
  match r with
  | Ok (Val a, c1) =>
    text_eqb a w && match c_delta c1 with Delta (Layer [] 0 [] []) [] => true | _ => false end &&
    match aget key_eqb (Some (txt "b"), Some x) (k_red (c_cache c1)) with
    | Some (Some (t, RInference _ _)) => text_eqb (display t) w
    | _ => false
    end
  | _ => false
  end.
Lemma puts_down_ok r x w : puts_down r x w = true ->
  exists c1 t i why, r = Ok (Val w, c1) /\ c_delta c1 = delta_default /\ display t = w /\
    In ((Some (txt "b"), Some x), Some (t, RInference i why)) (k_red (c_cache c1)).
Proof.
  unfold puts_down. destruct r as [[[a|] c1]| | |]; try discriminate. intros E.
  apply andb_prop in E. destruct E as [E E3]. apply andb_prop in E. destruct E as [E1 E2].
  destruct (text_eqb_spec a w) as [->|]; [|discriminate E1].
  destruct (aget _ _ _) as [[[t why]|]|] eqn:A; try discriminate E3. destruct why as [| | |i why| | | | | | |]; try discriminate E3.
  destruct (text_eqb_spec (display t) w) as [D|]; [|discriminate E3].
  exists c1, t, i, why. split; [reflexivity|]. split; [|split; [exact D|exact (aget_in _ key_eqb_spec _ _ _ A)]].
  destruct (c_delta c1) as [[[|] [|] [|] [|]] [|]]; try discriminate E2. reflexivity.
Qed.

(** The rule `a => (b -> c)` is declared to be true, and so is `a`: then `b` reduces to `c` because of it. *)
Lemma rule_context_runs : puts_down (run_command cfg0 fuel0 (txt "b") rule_context) (Committed 47) (txt "c") = true.
Proof. vm_compute. reflexivity. Qed.
Example C57_case : exists c z c1 t i why, fair cfg0 /\ reachable_with true (links_safe true) c /\ settled cfg0 fuel0 c /\
  run_command cfg0 fuel0 (txt "b") c = Ok (Val z, c1) /\ z = txt "c" /\ widens delta_default (c_delta c1) /\
  display t = txt "c" /\
  In ((Some (txt "b"), Some (Committed 47)), Some (t, RInference i why)) (k_red (c_cache c1)) /\
  implied cfg0 (c_snap c1) fuel0 (c_delta c1) (Committed 47) t.
Proof.
  destruct (puts_down_ok _ _ _ rule_context_runs) as (c1 & t & i & why & E & D & T & I).
  exists rule_context, (txt "c"), c1, t, i, why. pose proof rule_context_reachable as R.
  pose proof (settled_now _ _ R eq_refl) as S.
  assert (W : widens delta_default (c_delta c1)) by (rewrite D; constructor).
  do 8 (split; [assumption || exact fair0 || reflexivity|]).
  destruct (proj1 (C57_conditions_are_true_partial _ _ _ _ _ _ _ fair0 R S E W) _ _ _ _ I) as (x & [= <-] & X). exact X.
Qed.

(** The pair `a => b` is declared to be false and `a` to be true.  Then `b`, which is not declared to reduce to
    anything, is answered with true because of `a => b`, although the answer to `a => b` is false. *)
Lemma false_context_runs : puts_down (run_command cfg0 fuel0 (txt "b") false_context) (Committed 47) (txt "true") = true.
Proof. vm_compute. reflexivity. Qed.
Definition false_checks (c : ctx) : bool :=
  answers (txt "true") (execute cfg0 fuel0 (txt "b") c) && answers (txt "false") (execute cfg0 fuel0 (txt "(a => b)") c).
Lemma false_checked : false_checks false_context = true.
Proof. vm_compute. reflexivity. Qed.
Theorem C57_false_implication_used_refuted :
  exists c a b imp p rule f c1 t i why c2 c3,
    reachable_with true (links_safe true) c /\
    built_in (c_snap c) imp CImplication /\ composed (c_snap c) p imp b /\ composed (c_snap c) rule a p /\
    built_in (c_snap c) f CFalse /\ reduces (c_snap c) rule f /\ (forall x, ~ reduces (c_snap c) b x) /\
    execute cfg0 fuel0 (txt "(a => b)") c = Ok (txt "false", c2) /\
    execute cfg0 fuel0 (txt "b") c = Ok (txt "true", c3) /\
    run_command cfg0 fuel0 (txt "b") c = Ok (Val (txt "true"), c1) /\
    In ((Some (txt "b"), Some (Committed b)), Some (t, RInference i why)) (k_red (c_cache c1)).
Proof.
  destruct (puts_down_ok _ _ _ false_context_runs) as (c1 & t & i & why & E & D & T & I).
  pose proof false_checked as Q. unfold false_checks in Q. apply andb_prop in Q. destruct Q as [Q1 Q2].
  apply answers_eq in Q1, Q2. destruct Q1 as [c3 Q1], Q2 as [c2 Q2].
  exists false_context, 44, 47, 32, 48, 49, 17, c1, t, i, why, c2, c3.
  split; [exact false_context_reachable|].
  split; [eexists; split; vm_compute; reflexivity|].
  split; [apply composition_of_composed; vm_compute; reflexivity|].
  split; [apply composition_of_composed; vm_compute; reflexivity|].
  split; [eexists; split; vm_compute; reflexivity|].
  split; [apply reduction_of_reduces; vm_compute; reflexivity|].
  split; [intros x H; apply reduction_of_reduces in H; vm_compute in H; discriminate H|].
  repeat split; assumption.
Qed.
Print Assumptions C57_false_implication_used_refuted.

(** The hypotheses on single steps are met at the start of every command of a settled history. *)
Definition one_step (r : outcome (rresult * sstate)) : bool :=
  match r with Ok (Some (t, RInference _ _), _) => text_eqb (display t) (txt "true") | _ => false end.
Definition leaf_b : tree := TLeaf (txt "b") (Some (Committed 47)) LConstant.
Lemma one_stepped : one_step (o_reduce (search cfg0 (c_snap false_context) fuel0 20)
  (new_env (c_delta false_context) (c_bound false_context)) leaf_b
  (start_state (c_cache false_context) (c_tick false_context))) = true.
Proof. vm_compute. reflexivity. Qed.
Lemma one_step_ok r : one_step r = true -> exists t i why s', r = Ok (Some (t, RInference i why), s') /\ display t = txt "true".
Proof.
  unfold one_step. destruct r as [[[[t []]|] s']| | |]; try discriminate. intros E.
  destruct (text_eqb_spec (display t) (txt "true")) as [D|]; [|discriminate E]. eauto 6.
Qed.
Example C57_step_case : exists c t s' r i why, reachable_with true (links_safe true) c /\ widens delta_default (c_delta c) /\
  placed (c_delta c) (new_env (c_delta c) (c_bound c)) /\
  earned_state cfg0 (c_snap c) fuel0 (c_delta c) (start_state (c_cache c) (c_tick c)) /\
  t_concept t = Some (Committed 47) /\
  o_reduce (search cfg0 (c_snap c) fuel0 20) (new_env (c_delta c) (c_bound c)) t
    (start_state (c_cache c) (c_tick c)) = Ok (Some (r, RInference i why), s') /\ display r = txt "true".
Proof.
  destruct (one_step_ok _ one_stepped) as (r & i & why & s' & E & D).
  exists false_context, leaf_b, s', r, i, why. split; [exact false_context_reachable|].
  split; [constructor|]. split; [apply (setting_placed _ true); eexists; reflexivity|].
  split; [|repeat split; assumption].
  split; [|split; [|split; [|split; discriminate]]].
  - intros [|[|h]] k x X; cbn in X; contradiction.
  - intros [|[|h]] k x X; cbn in X; contradiction.
  - intros k x X; cbn in X; contradiction.
Qed.
