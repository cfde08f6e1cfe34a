(** C30: rules apply only to instances of their pattern, also in the answers that are remembered. *)
From Verif Require Import Start Snapshot Search Context AstSpec StoreSpec MapFacts StoreFacts AstFacts History Steps
  Sample Witness Quiet Questions SearchKeeps Rules SearchCaches Earned CacheRun CacheLife PropertiesRepeat Uses.
From Coq Require Import String List Bool.
Import ListNotations.
Local Open Scope string_scope.

(** ** C30 *)
(** Commands are run one after the other from a context with an empty cache on.  Whenever an expression is
    evaluated and a rule is given as the reason, from memory or not: now, or when one of the earlier commands was
    run, with what the context knew then, an expression of this wording and concept was an instance of the
    pattern of the rule by the assignment [m] named in the reason.  The assignment gives one expression to each
    variable, the pattern reduced to some [t1] for the reason stated, and the answer is [t1] with [m] put for the
    variables.  For every history, build mode, hash order and fuel. *)
Theorem C30_rules_apply_to_instances cfg fuel ps c t t' pattern m why c' :
  commands_run cfg fuel ps c ->
  c_reduce cfg fuel t c = Ok (Val (Some (t', RRule pattern m why)), c') ->
  exists c0 c1, In (c0, c1) ((c, c) :: ps) /\ rule_applies cfg fuel (c_snap c0) (c_delta c1) (t_key t) t' m why.
Proof.
  intros H E. destruct (remembered_rules _ _ _ _ H) as [I1 I2].
  apply (answer_rules _ _ (c_snap c) (applied_in cfg fuel ps)) in E; [|reflexivity|].
  - destruct E as [(c0 & c1 & X & Y)|X]; [exists c0, c1; split; [now right|exact Y]|].
    exists c, c. split; [now left|exact X].
  - split; [exact I1|]. intros k u p m' w X. left. eapply I2, X.
Qed.
Print Assumptions C30_rules_apply_to_instances.

(** The same is true of everything that is in the memory of reductions when a command has been run, before its
    changes are committed. *)
Theorem C30_remembered_rules_applied cfg fuel ps c q z c1 k t' pattern m why :
  commands_run cfg fuel ps c -> run_command cfg fuel q c = Ok (z, c1) ->
  In (k, Some (t', RRule pattern m why)) (k_red (c_cache c1)) ->
  exists c0 c2, In (c0, c2) ((c, c1) :: ps) /\ rule_applies cfg fuel (c_snap c0) (c_delta c2) k t' m why.
Proof.
  intros H E X. destruct (remembered_rules _ _ _ _ H) as [I1 I2].
  destruct (run_rules cfg fuel (c_snap c) (applied_in cfg fuel ps) q c z c1 eq_refl) as [S [_ J2]]; [|exact E|].
  - split; [exact I1|]. intros k' u p m' w Y. left. eapply I2, Y.
  - apply J2 in X. destruct X as [(c0 & c2 & X & Y)|X]; [exists c0, c2; split; [now right|exact Y]|].
    exists c, c1. split; [now left|exact X].
Qed.
Print Assumptions C30_remembered_rules_applied.

(** ** A case *)
Lemma session_commands cfg fuel cmds : forall ps c rs c',
  commands_run cfg fuel ps c -> run_session cfg fuel cmds c = Ok (rs, c') ->
  exists ps', commands_run cfg fuel ps' c' /\ List.length ps' = List.length cmds + List.length ps.
Proof.
  induction cmds as [|q cmds IH]; intros ps c rs c' H E; cbn [run_session] in E.
  - injection E as _ <-. exists ps. auto.
  - destruct (execute cfg fuel q c) as [[a c1]| | |] eqn:X; try discriminate. cbn [obind] in E.
    destruct (run_session cfg fuel cmds c1) as [[rs' c2]| | |] eqn:E'; try discriminate. injection E as _ <-.
    destruct (execute_parts _ _ _ _ _ _ X) as (z & c3 & R & _).
    destruct (IH _ _ _ _ (RunNext _ _ _ _ _ _ _ _ _ H R X) E') as (ps' & H' & L). exists ps'. split; [exact H'|].
    rewrite L. cbn. now rewrite <- plus_n_Sm.
Qed.
(** The rule [_x_ twice _x_ -> two _x_] has been used on [b twice b]; another question has been asked since. *)
Definition two_b (r : rresult) : bool :=
  match r with Some (t', RRule _ (_ :: _) _) => text_eqb (display t') (txt "two b") | _ => false end.
Definition use_check (c : ctx) : bool :=
  match find (fun e => two_b (snd e)) (k_red (c_cache c)) with
  | Some e => match aget key_eqb (fst e) (k_red (c_cache c)) with Some r => two_b r | None => false end
  | None => false
  end.
Lemma twice_used :
  on_session (run_session cfg0 fuel0 (map txt ["let (_x_ twice _x_) -> (two _x_)"; "b twice b"; "twice b"]) context0)
    (fun _ c => use_check c) = true.
Proof. vm_compute. reflexivity. Qed.
Example C30_rules_apply_to_instances_case :
  exists ps c t t' pattern m why,
    commands_run cfg0 fuel0 ps c /\ List.length ps = 3 /\
    c_reduce cfg0 fuel0 t c = Ok (Val (Some (t', RRule pattern m why)), c) /\ display t' = txt "two b" /\
    exists c0 c1, In (c0, c1) ((c, c) :: ps) /\
      rule_applies cfg0 fuel0 (c_snap c0) (c_delta c1) (t_key t) t' m why.
Proof.
  destruct (session_witness _ _ twice_used) as (rs & c & E & _ & K).
  destruct (session_commands _ _ _ [] context0 _ _ (RunNothing cfg0 fuel0 context0 eq_refl) E) as (ps & H & L).
  unfold use_check in K. destruct (find _ _) as [[[s i] r0]|]; [|discriminate]. cbn [fst] in K.
  destruct (aget key_eqb (s, i) _) as [r|] eqn:A; [|discriminate]. unfold two_b in K.
  destruct r as [[t' why]|]; [|discriminate]. destruct why as [| |p m why| | | | | | | |]; try discriminate K.
  set (t := TBranch s i (new_constant_concept (Committed 0)) (new_constant_concept (Committed 0)) [] []).
  assert (X : c_reduce cfg0 fuel0 t c = Ok (Val (Some (t', RRule p m why)), c))
    by (apply reduce_remembered; [exact A|discriminate]).
  exists ps, c, t, t', p, m, why. split; [exact H|]. split; [exact L|]. split; [exact X|].
  split; [destruct m; [discriminate|]; now destruct (text_eqb_spec (display t') (txt "two b"))|].
  eapply C30_rules_apply_to_instances; eassumption.
Qed.
