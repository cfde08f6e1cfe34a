(** C26, C36, C39: the answers that are remembered. *)
From Verif Require Import Start Snapshot Search Context StoreSpec MapFacts AstFacts StoreFacts RangeFacts
  History Steps SearchCaches Repeat Earned CacheRun CacheLife Clones Sample Witness PropertiesFrames.
From Coq Require Import String List Bool PeanoNat.
Import ListNotations.
Local Open Scope string_scope.

(** ** Specification *)
(** The cache is emptied by every change.  A history is settled if none of its commands
    evaluates anything between its last change and the end: it changes nothing or leaves an
    empty cache. *)
Definition settles (c1 : ctx) : Prop := recorded c1 = [] \/ c_cache c1 = empty_cache.
Inductive settled (cfg : config) (fuel : nat) : ctx -> Prop :=
| SettledStart c : ready c -> c_cache c = empty_cache -> settled cfg fuel c
| SettledNext q c a c' z c1 : settled cfg fuel c -> execute cfg fuel q c = Ok (a, c') ->
    run_command cfg fuel q c = Ok (z, c1) -> settles c1 -> settled cfg fuel c'.
(** Questions that record no change, one after the other. *)
Inductive asked (cfg : config) (fuel : nat) : list text -> ctx -> ctx -> Prop :=
| AskedNothing c : asked cfg fuel [] c c
| AskedFirst q qs c a c' z c1 c2 : execute cfg fuel q c = Ok (a, c') ->
    run_command cfg fuel q c = Ok (z, c1) -> recorded c1 = [] -> asked cfg fuel qs c' c2 ->
    asked cfg fuel (q :: qs) c c2.
(** A clone of [c] when the cache they share has become [K] (see Clones.v); its local hash
    collections are numbered from [tick]. *)
Definition clone_of (c : ctx) (K : cache) (tick : nat) : ctx :=
  Ctx (c_snap c) (c_delta c) K (c_vars c) (c_bound c) (pinned c) tick.
(** What may be in the cache of [c] after questions to any clones of [c], in any order. *)
Inductive shared_cache (cfg : config) (fuel : nat) (c : ctx) : cache -> Prop :=
| SharedOwn : shared_cache cfg fuel c (c_cache c)
| SharedAfter K tick q a c' z c1 : shared_cache cfg fuel c K ->
    execute cfg fuel q (clone_of c K tick) = Ok (a, c') ->
    run_command cfg fuel q (clone_of c K tick) = Ok (z, c1) -> recorded c1 = [] ->
    shared_cache cfg fuel c (c_cache c').

Lemma settled_ready cfg fuel c : fair cfg -> settled cfg fuel c -> ready c /\ earned_context cfg fuel c.
Proof.
  intros F H. induction H as [c R E|q c a c' z c1 H [R X] E E1 S].
  - split; [exact R|]. apply empty_earned, E.
  - split; [apply (execute_shape _ _ _ _ _ _ F R E)|]. eapply execute_earned; eassumption.
Qed.

Lemma trail_caches cfg snap rf e n t s l x s' :
  trail cfg snap rf e n t s l x s' -> caches_exist (e_reds e) s -> caches_exist (e_reds e) s'.
Proof.
  intros T. induction T as [n t s s' E|n t s t1 why s1 l x s' E T IH]; intros C.
  - eapply reduce_keeps_answers; eassumption.
  - apply IH. eapply reduce_keeps_answers; eassumption.
Qed.
(** A remembered reduction is the answer. *)
Lemma reduce_remembered cfg fuel c t r :
  aget key_eqb (t_key t) (k_red (c_cache c)) = Some r -> fuel <> 0 ->
  c_reduce cfg fuel t c = Ok (Val r, c).
Proof.
  intros H Z. destruct fuel as [|n]; [congruence|]. unfold c_reduce, with_search, ops_of.
  cbn [search step o_reduce]. unfold reduce. unfold sbind at 1. unfold cached_reduction. cbn [obind].
  cbn [e_reds new_env]. rewrite lookup_own by discriminate. cbn [start_state s_red hd]. rewrite H.
  cbn. destruct c as [sn d [k1 k2 k3] v b p tk]. reflexivity.
Qed.
Lemma asked_ready cfg fuel qs c c' :
  fair cfg -> ready c -> asked cfg fuel qs c c' ->
  ready c' /\ c_snap c' = c_snap c /\ c_delta c' = c_delta c /\ remembered c c'.
Proof.
  intros F R H. induction H as [c|q qs c a c' z c1 c2 E E1 Z H IH].
  - split; [exact R|]. split; [reflexivity|]. split; [reflexivity|]. intros k r X. exact X.
  - destruct (execute_quiet _ _ _ _ _ _ _ _ R E E1 Z) as (A1 & A2 & _).
    pose proof (execute_remembers _ _ _ _ _ _ _ _ R E E1 Z) as M.
    destruct (IH (proj1 (execute_shape _ _ _ _ _ _ F R E))) as (I1 & I2 & I3 & I4).
    split; [exact I1|]. split; [congruence|]. split; [congruence|]. intros k r X. apply I4, M, X.
Qed.
Lemma shared_ready cfg fuel c K tick :
  fair cfg -> ready c -> earned_context cfg fuel c -> shared_cache cfg fuel c K ->
  ready (clone_of c K tick) /\ earned_context cfg fuel (clone_of c K tick) /\ remembered c (clone_of c K tick).
Proof.
  intros F R X H. revert tick. induction H as [|K tick q a c' z c1 H IH E E1 Z]; intros tick'.
  - split; [destruct R; constructor; assumption|]. split; [exact X|]. intros k r Y. exact Y.
  - destruct (IH tick) as (I1 & I2 & I3).
    destruct (execute_quiet _ _ _ _ _ _ _ _ I1 E E1 Z) as (A1 & A2 & _). cbn in A1, A2.
    pose proof (proj1 (execute_shape _ _ _ _ _ _ F I1 E)) as R'.
    pose proof (proj2 (execute_earned _ _ _ _ _ _ _ _ I1 I2 E E1) (or_introl Z)) as X'.
    pose proof (execute_remembers _ _ _ _ _ _ _ _ I1 E E1 Z) as M.
    split; [|split].
    + destruct R, R'. constructor; cbn; try assumption. rewrite <- A1. assumption.
    + unfold earned_context in *. cbn. rewrite <- A1, <- A2. exact X'.
    + intros k r Y. apply (M k r). apply I3, Y.
Qed.

(** ** C36 *)

(** Full statement: whatever is served from a cache equals what would be computed without it,
    refuted by [C36_one_question_spoils_another_refuted].  Proved:
    when a command has been run after a settled history, and before it is committed, every entry
    of the cache was computed by the evaluator from what the context knows at this moment, the
    changes of the command included.  Reductions and trees were computed for a question to the
    context, not on the assumptions of a rule or an inference that was being tried.  The caches
    that were used for it were filled in the same way.
    Missing: the entry is found again by its text and concept, which other trees may share; and
    a command that evaluates something after its last change leaves entries with identifiers
    that are no longer valid after the commit. *)
Theorem C36_cached_answers_were_computed_partial cfg fuel c q z c1 :
  fair cfg -> settled cfg fuel c -> run_command cfg fuel q c = Ok (z, c1) ->
  c_snap c1 = c_snap c /\
  (forall k r, In (k, r) (k_red (c_cache c1)) ->
     earned_reduction cfg (c_snap c1) fuel (c_delta c1) true k r) /\
  (forall id t, In (id, t) (k_syn (c_cache c1)) ->
     earned_tree cfg (c_snap c1) fuel (c_delta c1) true id t) /\
  (forall id r, In (id, r) (k_inf (c_cache c1)) ->
     earned_inference cfg (c_snap c1) fuel (c_delta c1) id r).
Proof.
  intros F H E. destruct (settled_ready _ _ _ F H) as [R X].
  exact (run_earned cfg fuel q c z c1 (sane_numbers _ (ready_sane _ R)) X E).
Qed.
Print Assumptions C36_cached_answers_were_computed_partial.

(** ** C26 *)

(** Full statement: the same query twice in a row gives the same answer twice, refuted by
    [C26_repeated_query_refuted].  Proved: in every context, if the evaluator finds the normal
    form [x] of a tree [t] then it finds it again, and changes nothing the second time, provided
    that no tree on the way is a variable or has the text and concept of the one before it.
    Missing: reading the command, the calls that are made while a command is evaluated, and the
    commit, which may make the entries of the cache invalid. *)
Theorem C26_evaluation_repeats_partial cfg fuel c t x c1 :
  c_normal_form cfg fuel t c = Ok (Val x, c1) ->
  (exists visited s', trail cfg (c_snap c) fuel (new_env (c_delta c) (c_bound c)) fuel t
      (start_state (c_cache c) (c_tick c)) visited x s') /\
  (forall visited s', trail cfg (c_snap c) fuel (new_env (c_delta c) (c_bound c)) fuel t
      (start_state (c_cache c) (c_tick c)) visited x s' ->
    (forall v, In v visited -> t_is_variable v = false) -> progresses visited ->
    c_normal_form cfg fuel t c1 = Ok (Val x, c1)).
Proof.
  intros E. unfold c_normal_form, with_search in E.
  set (f := o_nf (ops_of cfg fuel c)) in *.
  destruct (smap fst (f (new_env (c_delta c) (c_bound c)) t None) (start_state (c_cache c) (c_tick c)))
    as [[a s]| | |] eqn:X; try discriminate.
  injection E as -> <-. unfold smap in X. apply Questions.sb in X. destruct X as ([y why] & s1 & X & [= -> ->]).
  assert (C : caches_exist (e_reds (new_env (c_delta c) (c_bound c))) (start_state (c_cache c) (c_tick c))).
  { intros h [<-|[]]. cbn. auto. }
  destruct (normal_form_trail cfg (c_snap c) fuel fuel _ _ _ _ _ _ _ X C) as (_ & l & T & A).
  split; [exists l, s; exact T|]. intros l' s' T' V Pr.
  destruct (trail_unique _ _ _ _ _ _ _ _ _ _ _ _ _ T T') as (-> & _ & ->).
  unfold c_normal_form, with_search. cbn [c_snap c_delta c_bound c_cache c_tick c_vars pinned].
  unfold smap, sbind. unfold ops_of in *. cbn [c_snap c_delta c_bound c_cache c_tick c_vars pinned].
  rewrite (A ltac:(discriminate) V Pr); [reflexivity|].
  intros k. cbn [e_reds new_env]. rewrite lookup_own by discriminate. rewrite lookup_own; [reflexivity|].
  intros X'. assert (Y : lt 0 (length (s_red s))).
  { eapply trail_caches; [exact T|exact C|now left]. }
  rewrite X' in Y. inversion Y.
Qed.
Print Assumptions C26_evaluation_repeats_partial.

(** Proved also: an answer that is remembered stays the answer, whatever questions that record
    no change are asked in between, and however often. *)
Theorem C26_remembered_answers_stay_partial cfg fuel qs c c' t r :
  fair cfg -> ready c -> asked cfg fuel qs c c' -> fuel <> 0 ->
  aget key_eqb (t_key t) (k_red (c_cache c)) = Some r ->
  c_snap c' = c_snap c /\ c_delta c' = c_delta c /\ c_reduce cfg fuel t c' = Ok (Val r, c').
Proof.
  intros F R H Z G. destruct (asked_ready _ _ _ _ _ F R H) as (_ & H1 & H2 & M).
  split; [exact H1|]. split; [exact H2|]. apply reduce_remembered; [apply M, G|exact Z].
Qed.
Print Assumptions C26_remembered_answers_stay_partial.

(** ** C39 *)

(** Full statement: commands on a clone do not change how the original evaluates, refuted by
    [C39_clones_share_their_cache_refuted].  Proved: after any questions to any clones that record no
    change, everything in the cache that they share with the original was computed from what the
    original knows, the original's remembered answers are still its answers, and it can be used as
    before.
    Missing: a question to a clone may leave an answer that the original gives to another
    question; and clones that record changes. *)
Theorem C39_clones_leave_answers_partial cfg fuel c K tick :
  fair cfg -> ready c -> earned_context cfg fuel c -> shared_cache cfg fuel c K ->
  ready (clone_of c K tick) /\ earned_context cfg fuel (clone_of c K tick) /\
  (forall t r, fuel <> 0 -> aget key_eqb (t_key t) (k_red (c_cache c)) = Some r ->
     c_reduce cfg fuel t (clone_of c K tick) = Ok (Val r, clone_of c K tick)).
Proof.
  intros F R X H. destruct (shared_ready _ _ _ _ tick F R X H) as (H1 & H2 & H3).
  split; [exact H1|]. split; [exact H2|]. intros t r Z G. apply reduce_remembered; [apply H3, G|exact Z].
Qed.
Print Assumptions C39_clones_leave_answers_partial.

(** ** A case *)
(** `q d` reduces to `p`, which is short for `q r`.  The cache is empty before the question. *)
Definition repeat_commands := ["let (p (:= (q r)))"; "let ((q d) (-> p))"].
Definition q_d : tree :=
  TBranch (Some (txt "q d")) (Some (Committed 54)) (TLeaf (txt "q") (Some (Committed 47)) LConstant)
    (TLeaf (txt "d") (Some (Committed 53)) LConstant) [] [].
Definition leaf_p : tree := TLeaf (txt "p") (Some (Committed 44)) LConstant.
Definition nothing_recorded (c : ctx) : bool := match recorded c with [] => true | _ => false end.
Lemma nothing_recorded_ok c : nothing_recorded c = true -> recorded c = [].
Proof. unfold nothing_recorded. destruct (recorded c); [reflexivity|discriminate]. Qed.
Definition no_cache (c : ctx) : bool :=
  match c_cache c with Cache [] [] [] => true | _ => false end.
Lemma no_cache_ok c : no_cache c = true -> c_cache c = empty_cache.
Proof.
  unfold no_cache. destruct (c_cache c) as [[|? ?] [|? ?] [|? ?]]; intros E; try discriminate E. reflexivity.
Qed.
(** The cache says that the tree with the key of `q d` reduces to the leaf `p`. *)
Definition knows_p (c : ctx) : bool :=
  match aget key_eqb (t_key q_d) (k_red (c_cache c)) with
  | Some (Some (TLeaf s (Some id) LConstant, RExplicit)) =>
    text_eqb s (txt "p") && cid_eqb id (Committed 44)
  | _ => false
  end.
Lemma knows_p_ok c : knows_p c = true ->
  aget key_eqb (t_key q_d) (k_red (c_cache c)) = Some (Some (leaf_p, RExplicit)).
Proof.
  unfold knows_p. destruct (aget _ _ _) as [[[[s [id|] []|] []]|]|]; try discriminate.
  destruct (text_eqb_spec s (txt "p")); [subst|discriminate].
  destruct (cid_eqb_spec id (Committed 44)); [subst|discriminate]. reflexivity.
Qed.
(** The trees that are met on the way to the normal form. *)
Fixpoint follow (cfg : config) (snap : snapshot) (rf : nat) (e : env) (n : nat) (t : tree) (s : sstate)
  : option (list tree * tree * sstate) :=
  match n with
  | 0 => None
  | S n =>
    match o_reduce (search cfg snap rf n) e t s with
    | Ok (None, s') => Some ([t], t, s')
    | Ok (Some (t1, _), s1) =>
      match follow cfg snap rf e n t1 s1 with
      | Some (l, x, s') => Some (t :: l, x, s')
      | None => None
      end
    | _ => None
    end
  end.
Lemma follow_ok cfg snap rf e n : forall t s l x s',
  follow cfg snap rf e n t s = Some (l, x, s') -> trail cfg snap rf e n t s l x s'.
Proof.
  induction n as [|n IH]; intros t s l x s' E; [discriminate|]. cbn [follow] in E.
  destruct (o_reduce _ _ _ _) as [[[[t1 why]|] s1]| | |] eqn:Ho; try discriminate.
  - destruct (follow _ _ _ _ n t1 s1) as [[[l1 x1] s2]|] eqn:F; [|discriminate]. injection E as <- <- <-.
    eapply TrailStep; [exact Ho|apply IH, F].
  - injection E as <- <- <-. apply TrailEnd, Ho.
Qed.
Definition trail_check (o : option (list tree * tree * sstate)) : bool :=
  match o with
  | Some ([a; b], _, _) => negb (t_is_variable a) && negb (t_is_variable b)
                           && negb (key_eqb (t_key b) (t_key a))
  | _ => false
  end.
Lemma trail_check_ok o : trail_check o = true ->
  exists a b x s', o = Some ([a; b], x, s') /\ (forall v, In v [a; b] -> t_is_variable v = false) /\
    progresses [a; b].
Proof.
  destruct o as [[[[|a [|b [|]]] x] s']|]; try discriminate. intros E. cbn in E.
  apply andb_prop in E. destruct E as [E E3]. apply andb_prop in E. destruct E as [E1 E2].
  exists a, b, x, s'. split; [reflexivity|]. split.
  - intros v [<-|[<-|[]]]; [destruct (t_is_variable a)|destruct (t_is_variable b)]; easy.
  - split; [|exact I]. destruct (key_eqb_spec (t_key b) (t_key a)); easy.
Qed.
Definition has_form (x : outcome (zres tree * ctx)) : bool :=
  match x with Ok (Val t, _) => text_eqb (display t) (txt "p") | _ => false end.
Lemma has_form_ok x : has_form x = true -> exists t c, x = Ok (Val t, c) /\ display t = txt "p".
Proof.
  destruct x as [[[t|] c]| | |]; try discriminate. unfold has_form. intros E.
  destruct (text_eqb_spec (display t) (txt "p")); [eauto|discriminate].
Qed.
Definition quietly (q : string) (c : ctx) : bool :=
  match run_command cfg0 fuel0 (txt q) c with Ok (_, c1) => nothing_recorded c1 | _ => false end.
Lemma quietly_ok q c : quietly q c = true ->
  exists z c1, run_command cfg0 fuel0 (txt q) c = Ok (z, c1) /\ recorded c1 = [].
Proof.
  unfold quietly. destruct (run_command _ _ _ _) as [[z c1]| | |]; intros E; try discriminate E.
  apply nothing_recorded_ok in E. eauto.
Qed.
Definition answered (r : text) (x : outcome (text * ctx)) (check : ctx -> bool) : bool :=
  match x with Ok (r', c') => text_eqb r' r && check c' | _ => false end.
Lemma answered_ok r x check : answered r x check = true -> exists c', x = Ok (r, c') /\ check c' = true.
Proof.
  destruct x as [[r' c']| | |]; try discriminate. unfold answered. intros E.
  destruct (text_eqb_spec r' r); [subst; eauto|discriminate].
Qed.
Definition repeat_check (_ : list text) (c : ctx) : bool :=
  no_cache c &&
  match run_command cfg0 fuel0 (txt "q d") c with
  | Ok (_, c1) => nothing_recorded c1 && knows_p c1
  | _ => false
  end &&
  answered (txt "p") (execute cfg0 fuel0 (txt "q d") c) (fun c2 => knows_p c2 && quietly "q d" c2 &&
    answered (txt "p") (execute cfg0 fuel0 (txt "q d") c2) (fun _ => true)) &&
  (has_form (c_normal_form cfg0 fuel0 q_d c) &&
   trail_check (follow cfg0 (c_snap c) fuel0 (new_env (c_delta c) (c_bound c)) fuel0 q_d
     (start_state (c_cache c) (c_tick c)))).
Lemma repeat_checked :
  on_session (run_session cfg0 fuel0 (map txt repeat_commands) base_context) repeat_check = true.
Proof. vm_compute. reflexivity. Qed.

Lemma repeat_case : exists c, ready c /\ c_cache c = empty_cache /\
  (exists z c1 c2, run_command cfg0 fuel0 (txt "q d") c = Ok (z, c1) /\ recorded c1 = [] /\
   aget key_eqb (t_key q_d) (k_red (c_cache c1)) = Some (Some (leaf_p, RExplicit)) /\
   execute cfg0 fuel0 (txt "q d") c = Ok (txt "p", c2) /\
   aget key_eqb (t_key q_d) (k_red (c_cache c2)) = Some (Some (leaf_p, RExplicit)) /\
   exists z' c3 c4, run_command cfg0 fuel0 (txt "q d") c2 = Ok (z', c3) /\ recorded c3 = [] /\
     execute cfg0 fuel0 (txt "q d") c2 = Ok (txt "p", c4)) /\
  has_form (c_normal_form cfg0 fuel0 q_d c) = true /\
  trail_check (follow cfg0 (c_snap c) fuel0 (new_env (c_delta c) (c_bound c)) fuel0 q_d
     (start_state (c_cache c) (c_tick c))) = true.
Proof.
  destruct (on_session_ok _ _ repeat_checked) as (rs & c & Er & E).
  unfold repeat_check in E. apply andb_prop in E. destruct E as [E E6]. apply andb_prop in E6.
  apply andb_prop in E. destruct E as [E E3]. apply andb_prop in E.
  destruct E as [E1 E2]. apply no_cache_ok in E1. exists c. split.
  { apply (reachable_ready true), (reachable_session cfg0 fuel0 fair0 _ base_context _ c (reach_base true) Er). }
  split; [exact E1|]. split; [|exact E6].
  destruct (run_command cfg0 fuel0 (txt "q d") c) as [[z c1]| | |]; try discriminate E2.
  apply answered_ok in E3. destruct E3 as (c2 & E3 & E5). apply andb_prop in E5. destruct E5 as [E5 E7].
  apply andb_prop in E5. destruct E5 as [E5 E8]. apply quietly_ok in E8. destruct E8 as (z' & c3 & E8 & E9).
  apply answered_ok in E7. destruct E7 as (c4 & E7 & _).
  apply andb_prop in E2. destruct E2 as [E2 E4]. apply nothing_recorded_ok in E2. apply knows_p_ok in E4, E5.
  exists z, c1, c2. do 5 (split; [assumption || reflexivity|]). exists z', c3, c4. auto.
Qed.
Example C36_case : exists c z c1, fair cfg0 /\ settled cfg0 fuel0 c /\
  run_command cfg0 fuel0 (txt "q d") c = Ok (z, c1) /\
  In (t_key q_d, Some (leaf_p, RExplicit)) (k_red (c_cache c1)) /\
  earned_reduction cfg0 (c_snap c1) fuel0 (c_delta c1) true (t_key q_d) (Some (leaf_p, RExplicit)).
Proof.
  destruct repeat_case as (c & R & E & (z & c1 & c2 & E1 & _ & K & _) & _).
  apply (aget_in _ key_eqb_spec) in K. exists c, z, c1. split; [exact fair0|].
  assert (S : settled cfg0 fuel0 c) by now constructor. split; [exact S|]. split; [exact E1|].
  split; [exact K|]. destruct (C36_cached_answers_were_computed_partial _ _ _ _ _ _ fair0 S E1) as (_ & X & _).
  apply X, K.
Qed.
Example C26_case : exists c x c1, c_normal_form cfg0 fuel0 q_d c = Ok (Val x, c1) /\ display x = txt "p" /\
  c_normal_form cfg0 fuel0 q_d c1 = Ok (Val x, c1).
Proof.
  destruct repeat_case as (c & _ & _ & _ & H & T).
  apply has_form_ok in H. destruct H as (x & c1 & E & D).
  exists c, x, c1. split; [exact E|]. split; [exact D|].
  destruct (C26_evaluation_repeats_partial _ _ _ _ _ _ E) as [(l & s & T1) A].
  apply trail_check_ok in T. destruct T as (a & b & y & s' & T & V & Pr). apply follow_ok in T.
  destruct (trail_unique _ _ _ _ _ _ _ _ _ _ _ _ _ T1 T) as (<- & -> & ->). exact (A _ _ T1 V Pr).
Qed.
(** `q d` has been asked once and is remembered; it is asked again, of the context or of a clone. *)
Example C26_stays_case : exists c c', ready c /\ asked cfg0 fuel0 [txt "q d"] c c' /\
  aget key_eqb (t_key q_d) (k_red (c_cache c)) = Some (Some (leaf_p, RExplicit)) /\
  c_reduce cfg0 fuel0 q_d c' = Ok (Val (Some (leaf_p, RExplicit)), c').
Proof.
  destruct repeat_case as (c & R & _ & (z & c1 & c2 & _ & _ & _ & E & K & z' & c3 & c4 & E1 & Z & E2) & _).
  pose proof (proj1 (execute_shape _ _ _ _ _ _ fair0 R E)) as R2.
  assert (A : asked cfg0 fuel0 [txt "q d"] c2 c4).
  { eapply AskedFirst; [exact E2|exact E1|exact Z|constructor]. }
  exists c2, c4. split; [exact R2|]. split; [exact A|]. split; [exact K|].
  apply (C26_remembered_answers_stay_partial cfg0 fuel0 _ _ _ _ _ fair0 R2 A); [discriminate|exact K].
Qed.
Example C39_case : exists c K tick, ready c /\ earned_context cfg0 fuel0 c /\ shared_cache cfg0 fuel0 c K /\
  aget key_eqb (t_key q_d) (k_red (c_cache c)) = Some (Some (leaf_p, RExplicit)) /\
  c_reduce cfg0 fuel0 q_d (clone_of c K tick) =
    Ok (Val (Some (leaf_p, RExplicit)), clone_of c K tick).
Proof.
  destruct repeat_case as (c & R & X & (z & c1 & c2 & E0 & Z0 & _ & E & K & z' & c3 & c4 & E1 & Z & E2) & _).
  pose proof (proj1 (execute_shape _ _ _ _ _ _ fair0 R E)) as R2.
  pose proof (proj2 (execute_earned _ _ _ _ _ _ _ _ R (empty_earned _ _ _ X) E E0) (or_introl Z0)) as X2.
  assert (Q : clone_of c2 (c_cache c2) (c_tick c2) = c2) by (destruct c2; reflexivity).
  assert (S : shared_cache cfg0 fuel0 c2 (c_cache c4)).
  { eapply (SharedAfter _ _ c2 (c_cache c2) (c_tick c2)); [constructor|rewrite Q; exact E2|rewrite Q; exact E1|exact Z]. }
  exists c2, (c_cache c4), 7. split; [exact R2|]. split; [exact X2|]. split; [exact S|]. split; [exact K|].
  apply (C39_clones_leave_answers_partial cfg0 fuel0 _ _ 7 fair0 R2 X2 S); [discriminate|exact K].
Qed.
