(** Where the remembered uses of rules come from (C30). *)
From Verif Require Import Snapshot Search Context Questions StoreSpec MapFacts AstSpec AstFacts StoreFacts StoreInv RangeFacts
  History Steps SearchKeeps SearchCaches Earned CacheRun CacheLife Rules.
From Coq Require Import List PeanoNat Bool.
Import ListNotations.
Local Open Scope zia_scope.

(** ** Specification *)
Lemma remembered_answer cfg snap fuel n d bound t s r r' s' :
  lookup_red [0] (t_key t) (s_red s) = Some r ->
  o_reduce (search cfg snap fuel n) (new_env d bound) t s = Ok (r', s') -> r = r'.
Proof.
  intros K E. destruct n as [|n]; [discriminate|]. cbn [search step o_reduce] in E. unfold reduce in E.
  apply sb in E. destruct E as (x & s1 & E1 & E). unfold cached_reduction in E1. cbn [e_reds new_env] in E1.
  rewrite K in E1. injection E1 as <- <-. now injection E as -> _.
Qed.
Section Uses.
  Variables (cfg : config) (fuel : nat).
  (** In the store [snap] with the changes [d], outside of any rule: an expression with the key [k] (wording and
      concept) is an instance of the pattern [g] by the assignment [m], the pattern reduces to [t1] for the
      reason [why], and [t'] is [t1] with [m] put for its variables. *)
  Definition rule_applies (snap : snapshot) (d : delta) (k : key) (t' : tree) (m : mask) (why : reason) : Prop :=
    exists n t u g t1,
      t_key t = k /\ t_exp u = t_exp t /\ m <> [] /\ functional m /\
      fits (open_in cfg snap (new_env d [])) (closed_in cfg snap (new_env d [])) (composed_of cfg snap (new_env d [])) m u g /\
      pattern_reduces cfg snap fuel n (new_env d []) m g t1 why /\ filled m t1 t'.
  (** Commands from a context with an empty cache on: the contexts in which each of them was run and that it led
      to, with its changes still to be committed; the latest first. *)
  Inductive commands_run : list (ctx * ctx) -> ctx -> Prop :=
  | RunNothing c : c_cache c = empty_cache -> commands_run [] c
  | RunNext ps c q z c1 a c' :
      commands_run ps c -> run_command cfg fuel q c = Ok (z, c1) -> execute cfg fuel q c = Ok (a, c') ->
      commands_run ((c, c1) :: ps) c'.
  Definition applied_in (ps : list (ctx * ctx)) (k : key) (t' : tree) (m : mask) (why : reason) : Prop :=
    exists c c1, In (c, c1) ps /\ rule_applies (c_snap c) (c_delta c1) k t' m why.

  (** ** Proofs *)
  Section Laws.
    Variables (snap : snapshot) (old : key -> tree -> mask -> reason -> Prop).
    Definition rules_state (d : delta) (s : sstate) : Prop :=
      inferences (s_inf s) /\ s_red s <> [] /\ s_syn s <> [] /\
      forall k t' p m why, In (k, Some (t', RRule p m why)) (nth 0 (s_red s) []) ->
        old k t' m why \/ rule_applies snap d k t' m why.
    Lemma fresh_rule d bound n t s t' p m why s' :
      lookup_red [0] (t_key t) (s_red s) = None -> inferences (s_inf s) ->
      o_reduce (search cfg snap fuel n) (new_env d bound) t s = Ok (Some (t', RRule p m why), s') ->
      rule_applies snap d (t_key t) t' m why.
    Proof.
      intros K I E. destruct n as [|n]; [discriminate|]. apply reduce_rule_used in E; [|exact K|exact I].
      destruct E as (u & g & X & Z & F & Y & t1 & P & W). exists n, t, u, g, t1. auto 10.
    Qed.
    Lemma rules_laws d :
      cache_laws cfg snap fuel (rules_state d) (fun _ _ => True) (placed d) (placed_new d) (fun h => h <> 0).
    Proof.
      constructor; try (intros; exact I).
      - intros s n H. split; [exact H|exact I].
      - intros s h s' (H1 & H2 & H3 & H4) [= <- <-]. split; [|split; [|exact I]].
        + destruct (s_red s); [congruence|discriminate].
        + split; [exact H1|]. cbn [s_red s_syn]. split; [destruct (s_red s); [congruence|discriminate]|].
          split; [exact H3|]. intros k t' p m why X. apply in_more in X. eauto.
      - intros e h d' s e' s' (W & P1 & P2) Hh Hw (H1 & H2 & H3 & H4) E. unfold spawn in E.
        apply sb in E. destruct E as (sy & s1 & [= <- <-] & [= <- <-]). split; [|split; [|exact I]].
        + split; [eapply widens_trans; eassumption|]. split; [exact Hh|]. cbn.
          destruct (s_syn s); [congruence|discriminate].
        + split; [exact H1|]. split; [exact H2|]. split; [|exact H4]. cbn. destruct (s_syn s); [congruence|discriminate].
      - intros e (W & P1 & P2). split; [exact W|]. split; intros; contradiction.
      - intros e e0 vm ml t g s s1 _ H _ _ _. exact H.
      - intros e k H. exact H.
      - intros e c H. destruct c; exact H.
      - intros n e t s r s1 s2 Pe (H1 & H2 & H3 & H4) M (K1 & K2 & K3 & K4) _ E R.
        split; [|exact I]. unfold insert_reduction in E. injection E as <-.
        match goal with |- context [if ?b then _ else _] => destruct b eqn:B end;
          [|repeat (split; [assumption|]); assumption].
        split; [assumption|]. split; [|split; [assumption|]].
        + cbn [s_red]. intros X. apply K2. apply length_zero_iff_nil.
          rewrite <- (length_upd_nth (hd 0 (e_reds e)) (aset key_eqb (t_key t) r)), X. reflexivity.
        + intros k t' p m why X. cbn [s_red] in X. apply in_upd in X. destruct X as [X|[Hh X]]; [eauto|].
          apply (in_aset _ key_eqb_spec) in X. destruct X as [[-> <-]|X]; [|eauto].
          right. destruct (proj1 (proj2 Pe) (eq_sym Hh)) as [bound ->]. cbn [e_reds new_env] in M.
          eapply fresh_rule; eassumption.
      - intros n e c m t s s1 s2 Pe _ Mm M Rd (K1 & K2 & K3 & K4) _ E _ R.
        split; [|exact I]. unfold insert_syntax in E. injection E as <-.
        destruct (m_anonymous m); [repeat (split; [assumption|]); assumption|].
        split; [assumption|]. split; [assumption|]. split; [|assumption].
        cbn [s_syn]. intros X. apply K3. apply length_zero_iff_nil.
        rewrite <- (length_upd_nth (e_syn e) (aset cid_eqb (m_id m) t)), X. reflexivity.
      - intros n e c t r s s1 s2 Pe M _ _ _ (K1 & K2 & K3 & K4) _ E1 E2.
        split; [|exact I]. split; [|split; [assumption|split; assumption]].
        intros k q X. cbn [s_inf] in X. apply (in_aset _ cid_eqb_spec) in X. destruct X as [[-> ->]|X]; [|eapply K1, X].
        eapply inferred_by, E2. apply search_keeps.
    Qed.
    Definition rules_kept (c : ctx) : Prop :=
      inferences (k_inf (c_cache c)) /\
      forall k t' p m why, In (k, Some (t', RRule p m why)) (k_red (c_cache c)) ->
        old k t' m why \/ rule_applies snap (c_delta c) k t' m why.
    Lemma rules_empty c : c_cache c = empty_cache -> rules_kept c.
    Proof. intros H. unfold rules_kept. rewrite H. split; [intros ? ? []|intros ? ? ? ? ? []]. Qed.
    Lemma rules_run_laws :
      run_laws cfg fuel (fun c => c_snap c = snap /\ rules_kept c) (fun _ _ => True)
        (fun c => rules_state (c_delta c)) (fun _ _ _ => True)
        (fun c => placed (c_delta c)) (fun c => placed_new (c_delta c)) (fun _ h => h <> 0).
    Proof.
      constructor; try (intros; exact I).
      - intros x c r c' [H _] E. unfold update in E. apply obind_ok in E. destruct E as ([id d'] & _ & [= <- <-]).
        split; [|exact I]. split; [exact H|]. apply rules_empty. reflexivity.
      - intros c [H _]. rewrite H. apply rules_laws.
      - intros c _. split; [constructor|]. split; intros _; eexists; reflexivity.
      - intros c [_ (H1 & H2)]. split; [exact H1|]. split; [discriminate|]. split; [discriminate|]. exact H2.
      - intros c s [H _] (H1 & H2 & H3 & H4) _. split; [|exact I]. split; [exact H|].
        split; [exact H1|]. cbn [final_cache k_red c_cache]. intros k t' p m why X. cbn [c_delta]. eapply (H4 _ _ p).
        destruct (s_red s); exact X.
      - intros c v b p H. split; [exact H|exact I].
    Qed.
    Lemma run_rules q c z c1 :
      c_snap c = snap -> rules_kept c -> run_command cfg fuel q c = Ok (z, c1) -> c_snap c1 = snap /\ rules_kept c1.
    Proof.
      intros S H E. destruct (ck_run _ _ _ _ _ _ _ _ _ rules_run_laws q c z c1 (conj S H) E) as [X _]. exact X.
    Qed.
    Lemma answer_rules t c t' p m why c2 :
      c_snap c = snap -> rules_kept c -> c_reduce cfg fuel t c = Ok (Val (Some (t', RRule p m why)), c2) ->
      old (t_key t) t' m why \/ rule_applies snap (c_delta c) (t_key t) t' m why.
    Proof.
      intros S (H1 & H2) E. unfold c_reduce, with_search, ops_of in E. rewrite S in E.
      destruct (o_reduce _ _ _ _) as [[r s']| | |] eqn:R; try discriminate. injection E as -> _.
      destruct (lookup_red [0] (t_key t) (s_red (start_state (c_cache c) (c_tick c)))) as [r|] eqn:K.
      - pose proof (remembered_answer _ _ _ _ _ _ _ _ _ _ _ K R) as ->. rewrite lookup_own in K by discriminate.
        apply (aget_in _ key_eqb_spec) in K. eauto.
      - right. eapply fresh_rule; [exact K|exact H1|exact R].
    Qed.
  End Laws.

  Lemma remembered_rules ps c :
    commands_run ps c ->
    inferences (k_inf (c_cache c)) /\
    forall k t' p m why, In (k, Some (t', RRule p m why)) (k_red (c_cache c)) -> applied_in ps k t' m why.
  Proof.
    intros H. induction H as [c H|ps c q z c1 a c' H IH E1 E].
    - rewrite H. split; [intros ? ? []|intros ? ? ? ? ? []].
    - destruct (execute_parts _ _ _ _ _ _ E) as (z' & c2 & E2 & _ & _ & K). rewrite E1 in E2. injection E2 as <- <-.
      rewrite K. destruct IH as [I1 I2].
      destruct (run_rules (c_snap c) (applied_in ps) q c z c1 eq_refl) as [S [J1 J2]]; [|exact E1|].
      { split; [exact I1|]. intros k t' p m why X. left. eauto. }
      split; [exact J1|]. intros k t' p m why X. apply J2 in X. destruct X as [(x & y & X & Y)|X].
      + exists x, y. split; [now right|exact Y].
      + exists c, c1. split; [now left|exact X].
  Qed.
End Uses.
