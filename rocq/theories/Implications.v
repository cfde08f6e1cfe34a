(** When an implication is used (C57). *)
From Verif Require Import Start Snapshot Search StoreSpec StoreInv StoreFacts MapFacts AstSpec AstFacts SearchKeeps SearchCaches
  Questions Existence Rules Matches Repeat Earned Wide.
From Coq Require Import String List PeanoNat Permutation.
Import ListNotations.
Local Open Scope zia_scope.

Section Implications.
  Variables (cfg : config) (snap : snapshot) (rf : nat).
  Notation ops n := (search cfg snap rf n).
  (** The store is [snap], and nothing but variables of the question may be pending. *)
  Variable d : delta.
  Notation earned_state := (earned_state cfg snap rf d).
  Notation placed := (placed d).
  Notation shown_in := (shown_in cfg snap rf earned_state).
  Notation evaluated := (evaluated cfg snap rf earned_state).
  Notation matches := (matches cfg snap rf earned_state).

  (** ** Specification *)
  Definition is_built_in (c : cid) (cc : cct) : Prop := exists n, c = Committed n /\ built_in snap n cc.
  (** [c] is the concept of [true] or listed as reducing to it. *)
  Definition known_true (c : cid) : Prop :=
    exists n k, c = Committed n /\ built_in snap k CTrue /\ (n = k \/ lists_reduction_from snap k n).
  Definition tree_for (e : env) (cc : cct) (t : tree) : Prop :=
    exists c, is_built_in c cc /\ shown_in e c t.
  (** [g] is [cond (imp (t (op res)))]. *)
  Definition rule_pattern (g cond imp t op res : tree) : Prop :=
    exists g1 g2 g3, t_exp g = Some (cond, g1) /\ t_exp g1 = Some (imp, g2) /\ t_exp g2 = Some (t, g3) /\ t_exp g3 = Some (op, res).
  (** The leaf of a variable that is known in [e'] and not in [e]. *)
  Definition new_variable (e e' : env) (v : tree) : Prop :=
    exists u, t_exp v = None /\ t_concept v = Some (Uncommitted u) /\
      delta_concept (e_delta e) (Uncommitted u) = None /\ delta_concept (e_delta e') (Uncommitted u) = Some own_variable.

  (** The tree [t] was found to reduce to [r] by way of a rule [cond => (t' -> res)] that is known to be true:
      [z] is known to be true and is an example of [vc => (t -> vr)]; what stands for [vc] in it evaluates
      to [true], and [r] is what stands for [vr]. *)
  Definition rule_applied (e : env) (t r : tree) : Prop :=
    exists e' g vc imp op vr z x cond cond' c res,
      widens (e_delta e) (e_delta e') /\ new_variable e e' vc /\ new_variable e e' vr /\ t_key vc <> t_key vr /\
      tree_for e' CImplication imp /\ tree_for e CReduction op /\ rule_pattern g vc imp t op vr /\
      known_true z /\ matches e' g z x /\
      maps_to (es_gen x) (t_key vc) cond /\ rebuilt (es_ex x) cond cond' /\ evaluated e' cond' c /\ is_built_in c CTrue /\
      maps_to (es_gen x) (t_key vr) res /\ rebuilt (es_ex x) res r.

  (** One step of evaluation. *)
  Definition steps_to (e : env) (t u : tree) : Prop :=
    exists n s why s', earned_state s /\ o_reduce (ops n) e t s = Ok (Some (u, why), s').
  (** The concept [k] was found to reduce to [r] because the store has a rule [cond => k], known to be true
      or not, and the tree of its condition reduces in one step to a tree for [true]; [r] is the tree of that. *)
  Definition conclusion_drawn (e : env) (k : nat) (r : tree) : Prop :=
    exists imp p cond rule ct u c,
      built_in snap imp CImplication /\ composed snap p imp k /\ composed snap rule cond p /\
      shown_in e (Committed cond) ct /\ steps_to e ct u /\ t_concept u = Some c /\ is_built_in c CTrue /\ shown_in e c r.
  (** Where a concept gets a reduction from by implication. *)
  Definition implied (c : cid) (r : tree) : Prop :=
    exists e, placed e /\
      ((exists k, c = Committed k /\ conclusion_drawn e k r) \/ (exists t, shown_in e c t /\ rule_applied e t r)).

  (** ** Proofs *)
  Hypothesis F : fair cfg.
  Hypothesis N : self_numbered snap.
  Hypothesis W : widens delta_default d.
  Hypothesis LR : listed_compositions_are_real snap.
  Hypothesis BI : forall cc c, concrete_concept_id cfg snap delta_default cc = Ok (Some c) -> is_built_in c cc.
  Notation laws := (earned_laws cfg snap rf d N).
  Lemma built_in_id e cc c : placed e -> concrete_concept_id cfg snap (e_delta e) cc = Ok (Some c) -> is_built_in c cc.
  Proof.
    intros Pe E. apply BI. eapply wide_concrete_id; [exact F| |exact E]. exact (widens_trans _ _ _ W (proj1 Pe)).
  Qed.
  Lemma standing e tr z : placed e -> is_built_in tr CTrue -> stands_for cfg snap e tr z -> known_true z.
  Proof.
    intros Pe (k & -> & B) [->|(m & R & I)]; [exists k, k; auto|]. unfold known in R.
    apply (wide_back cfg snap _ (widens_trans _ _ _ W (proj1 Pe))) in R. destruct R as (o & L & ->).
    cbn [m_reduces_from mixed_of_committed ch_from] in I. rewrite in_app_iff in I. destruct I as [I|I].
    - apply filter_In in I. destruct I as [I _]. apply in_map_iff in I. destruct I as (q & <- & I).
      exists q, k. split; [reflexivity|]. split; [exact B|]. right. exists o. split; [exact L|].
      eapply Permutation_in; [apply F|exact I].
    - exfalso. apply in_map_iff in I. destruct I as (q & _ & I). apply filter_In in I. destruct I as [I _].
      apply (Permutation_in _ (F _ _ _)) in I. destruct I.
  Qed.
  Lemma keep {A} (m : SM A) s a s' :
    kp earned_state (fun _ _ => True) m -> earned_state s -> m s = Ok (a, s') -> earned_state s'.
  Proof. intros K H E. exact (proj1 (K _ _ _ H E)). Qed.
  Lemma lifted {A} (x : outcome A) s a s' : slift x s = Ok (a, s') -> x = Ok a /\ s' = s.
  Proof. unfold slift. intros E. apply obind_ok in E. destruct E as (y & E & [= -> ->]). auto. Qed.
  Lemma new_pair_exp l r : t_exp (new_pair l r) = Some (l, r).
  Proof. unfold new_pair, branch. destruct (pair_vars l r). reflexivity. Qed.
  Lemma new_key a b : a <> b -> t_key (new_leaf_variable a) <> t_key (new_leaf_variable b).
  Proof. intros H [= _ X]. contradiction. Qed.

  Lemma inferred_applied n e t s r why s' : placed e -> earned_state s ->
    find_examples_of_inferred_reduction cfg snap rf (ops n) e t s = Ok (Some (r, why), s') -> rule_applied e t r.
  Proof.
    intros Pe H E. pose proof (search_kp_up_to _ _ _ _ _ _ _ _ laws n) as OB.
    unfold find_examples_of_inferred_reduction in E. apply at_some in E. destruct E as (imp & s1 & E1 & E).
    apply lifted in E1. destruct E1 as [Ci ->].
    apply at_some in E. destruct E as (op & s1 & E1 & E).
    pose proof (keep _ _ _ _ (concrete_ast_kp _ _ _ _ _ _ _ _ laws n OB e CReduction Pe) H E1) as H1.
    assert (Op : tree_for e CReduction op).
    { unfold concrete_ast in E1. apply at_some in E1. destruct E1 as (id & s2 & E1 & E2). apply lifted in E1.
      destruct E1 as [C ->]. exists id. split; [exact (built_in_id e _ _ Pe C)|]. unfold smap in E2. apply sb in E2.
      destruct E2 as (y & s3 & E2 & [= -> _]). exists n, s, s3. auto. }
    apply sb in E. destruct E as ([v_red d1] & s2 & D1 & E). apply lifted in D1. destruct D1 as [D1 ->].
    apply sb in E. destruct E as ([v_cond d2] & s2 & D2 & E). apply lifted in D2. destruct D2 as [D2 ->].
    apply sb in E. destruct E as ([v3 d3] & s2 & D3 & E). apply lifted in D3. destruct D3 as [D3 ->].
    pose proof (widens_trans _ _ _ W (proj1 Pe)) as W0.
    assert (W1 : widens delta_default d1) by eauto using widens.
    assert (W2 : widens delta_default d2) by eauto using widens.
    assert (W3 : widens delta_default d3) by eauto using widens.
    assert (We : widens (e_delta e) d3) by eauto 6 using widens.
    destruct (widened_new _ _ _ (WidensLayer _ _ W0) D1) as (R1 & _ & R3 & _).
    destruct (widened_new _ _ _ W1 D2) as (C1 & C2 & C3 & _).
    destruct (widened_new _ _ _ W2 D3) as (V1 & V2 & _).
    apply sb in E. destruct E as (h & s2 & E2 & E).
    destruct (l_new _ _ _ _ _ _ _ _ laws _ _ _ H1 E2) as (Hh & H2 & _).
    apply sb in E. destruct E as (e0 & s3 & E3 & E).
    destruct (l_spawn _ _ _ _ _ _ _ _ laws _ _ _ _ _ _ Pe Hh We H2 E3) as (P0 & H3 & _).
    assert (D0 : e_delta e0 = d3).
    { unfold spawn in E3. apply sb in E3. destruct E3 as (sy & s4 & _ & [= <- _]). reflexivity. }
    clear E2 E3. cbv zeta in E. set (e' := with_inferring e0 (t_concept t)) in *.
    assert (P' : placed_new d e') by (apply (l_infer _ _ _ _ _ _ _ _ laws), P0).
    apply (l_p1 _ _ _ _ _ _ _ _ laws) in P'.
    assert (D' : e_delta e' = d3) by (unfold e'; destruct (t_concept t); exact D0).
    clearbody e'. clear e0 D0 P0.
    apply sb in E. destruct E as (it & s4 & E4 & E).
    pose proof (keep _ _ _ _ (kp_to_ast _ _ _ _ (OB n (le_n n)) e' imp P') H3 E4) as H4.
    apply sb in E. destruct E as (tr & s5 & E5 & E). apply lifted in E5. destruct E5 as [Tr ->].
    apply sb in E. destruct E as (tr' & s5 & E5 & E). apply lifted in E5. destruct E5 as [U ->].
    destruct tr as [tr|]; [|discriminate]. injection U as <-.
    apply sb in E. destruct E as (truths & s5 & E5 & E).
    pose proof (keep _ _ _ _ (equivalence_set_kp _ _ _ _ _ _ _ _ laws e tr) H4 E5) as H5.
    apply (examples_matched _ _ _ _ _ _ _ _ laws) in E; [|exact P'|exact H5|].
    2:{ intros x. apply (kp_opt_then _ _ _ _ _ _ _ _ laws). intros cond.
        apply (kp_bind _ _ _ _ _ _ _ _ laws); [apply (substitute_kp _ _ _ _ _ _ _ _ laws); assumption|intros sc].
        apply (kp_bind _ _ _ _ _ _ _ _ laws); [apply (recursively_reduce_kp _ _ _ _ _ placed n OB), P'|intros [nf w]].
        apply (kp_opt_then _ _ _ _ _ _ _ _ laws). intros c.
        apply (kp_and_then _ _ _ _ _ _ _ _ laws); [apply (is_concrete_type_kp _ _ _ _ _ _ _ _ laws)|intros c'].
        apply (kp_opt_then _ _ _ _ _ _ _ _ laws). intros res.
        apply (kp_bind _ _ _ _ _ _ _ _ laws); [apply (substitute_kp _ _ _ _ _ _ _ _ laws); assumption|intros r'].
        apply (kp_ret _ _ _ _ _ _ _ _ laws). }
    destruct E as (z & x & s6 & s7 & Z & M & H6 & E). apply (equivalents _ _ _ _ _ _ _ E5) in Z.
    apply opt_some in E. destruct E as (cond & Gc & E). apply (aget_in key_eqb key_eqb_spec) in Gc.
    apply sb in E. destruct E as (cond' & s8 & E8 & E).
    pose proof (keep _ _ _ _ (substitute_kp _ _ _ _ _ _ _ _ laws n OB e _ _ Pe) H6 E8) as H8.
    apply substitute_rebuilds in E8.
    apply sb in E. destruct E as ([nf w] & s9 & E9 & E). apply opt_some in E. destruct E as (c & Tc & E).
    apply at_some in E. destruct E as (c' & s10 & E10 & E). apply opt_some in E. destruct E as (res & Gr & E).
    apply (aget_in key_eqb key_eqb_spec) in Gr. apply sb in E. destruct E as (r' & s11 & E11 & E).
    apply substitute_rebuilds in E11. injection E as -> _ _.
    unfold is_concrete_type in E10. apply sb in E10. destruct E10 as (ty & s12 & E10 & E12).
    apply lifted in E10. destruct E10 as [Ty ->].
    assert (T : ty = Some CTrue). { destruct ty as [[]|]; try discriminate E12; reflexivity. }
    subst ty.
    eexists e', _, (new_leaf_variable v_cond), it, op, (new_leaf_variable v_red), z, x, cond, cond', c, res.
    assert (L0 : forall u, delta_concept (delta_spawn (e_delta e)) u = delta_concept (e_delta e) u).
    { intros u. unfold delta_concept. cbn [delta_spawn layers layers_concept new_layer d_concept aget].
      destruct (layers_concept (layers (e_delta e)) u); reflexivity. }
    repeat match goal with |- _ /\ _ => split end; try eassumption.
    - rewrite D'. exact We.
    - destruct (widened_new _ _ _ W1 D2) as (_ & _ & _ & u & ->). exists u. repeat split; [|rewrite D'; apply V2, C1].
      destruct (delta_concept (e_delta e) (Uncommitted u)) eqn:G; [|reflexivity]. rewrite <- L0 in G.
      destruct (widened_new _ _ _ (WidensLayer _ _ W0) D1) as (_ & K & _). apply K in G. congruence.
    - destruct (widened_new _ _ _ (WidensLayer _ _ W0) D1) as (_ & _ & _ & u & ->). exists u.
      repeat split; [rewrite <- L0; exact R3|rewrite D'; apply V2, C2, R1].
    - apply new_key. intros <-. congruence.
    - exists imp. split; [exact (built_in_id e _ _ Pe Ci)|exists n, s3, s4; auto].
    - exists (new_pair it (new_pair t (new_pair op (new_leaf_variable v_red)))), (new_pair t (new_pair op (new_leaf_variable v_red))),
        (new_pair op (new_leaf_variable v_red)). repeat split; apply new_pair_exp.
    - exact (standing e tr z Pe (built_in_id e' _ _ P' Tr) Z).
    - exists n, s8, nf, w, s9. auto.
    - eapply wide_type; [|exact Ty]. rewrite D'. exact W3.
  Qed.

  Lemma earned_implied c r why : earned_inference cfg snap rf d c (Some (r, why)) -> implied c r.
  Proof.
    intros X. inversion X as [own n e c' t r' s s1 s2 St H1 H2 H3 H4 H5 M E1 E2 Ec Er]; subst.
    apply setting_placed in St. assert (H : earned_state s) by (split; [|split; [|split; [|split]]]; assumption).
    exists e. split; [exact St|]. right. exists t. split; [exists n, s, s1; auto|].
    eapply inferred_applied; [exact St| |exact E2]. pose proof (search_kp_up_to _ _ _ _ _ _ _ _ laws n) as OB.
    exact (keep _ _ _ _ (kp_to_ast _ _ _ _ (OB n (le_n n)) e c St) H E1).
  Qed.
  Lemma infer_implied n e c m s r why s' : placed e -> earned_state s -> known cfg snap e c m ->
    infer_reduction cfg snap rf (ops n) e m s = Ok (Some (r, why), s') -> implied c r.
  Proof.
    intros Pe H R E. pose proof (search_kp_up_to _ _ _ _ _ _ _ _ laws n) as OB.
    pose proof (widens_trans _ _ _ W (proj1 Pe)) as W0. pose proof (read_id _ _ _ _ _ N R) as Id.
    unfold infer_reduction in E. apply at_some in E. destruct E as (imp & s1 & E1 & E).
    apply lifted in E1. destruct E1 as [Ci ->]. pose proof (built_in_id _ _ _ Pe Ci) as (i & -> & Bi).
    assert (K : forall a : cid * cid, kp earned_state (fun _ _ => True) ((fun '(cond_id, rule_id) =>
               sbind (o_to_ast (ops n) e cond_id) (fun cond =>
               and_then (o_reduce (ops n) e cond) (fun '(cond', reason) =>
               opt_then (t_concept cond') (fun x =>
               and_then (is_concrete_type cfg snap e CTrue x) (fun x =>
                 sbind (o_to_ast (ops n) e x) (fun xt =>
                 sbind (o_to_ast (ops n) e rule_id) (fun rt =>
                 sret (Some (xt, RInference rt reason))))))))) a)).
    { intros [cond rule]. apply (kp_bind _ _ _ _ _ _ _ _ laws); [apply (kp_to_ast _ _ _ _ (OB n (le_n n))), Pe|intros ct].
      apply (kp_and_then _ _ _ _ _ _ _ _ laws); [apply (kp_reduce _ _ _ _ (OB n (le_n n))), Pe|intros [u w]].
      apply (kp_opt_then _ _ _ _ _ _ _ _ laws). intros x.
      apply (kp_and_then _ _ _ _ _ _ _ _ laws); [apply (is_concrete_type_kp _ _ _ _ _ _ _ _ laws)|intros y].
      apply (kp_bind _ _ _ _ _ _ _ _ laws); [apply (kp_to_ast _ _ _ _ (OB n (le_n n))), Pe|intros xt].
      apply (kp_bind _ _ _ _ _ _ _ _ laws); [apply (kp_to_ast _ _ _ _ (OB n (le_n n))), Pe|intros rt].
      apply (kp_ret _ _ _ _ _ _ _ _ laws). }
    apply or_some in E. destruct E as [E|(s1 & E1 & E)].
    - exists e. split; [exact Pe|]. left. apply opt_some in E. destruct E as (p & A & E). apply sb in E.
      destruct E as (cm & s1 & Ep & E). apply read_ok in Ep. destruct Ep as [Rp ->]. unfold known in R, Rp.
      destruct c as [k|u].
      2:{ exfalso. apply (wide_other cfg snap _ W0) in R. subst m. discriminate. }
      apply (wide_back cfg snap _ W0) in R. destruct R as (o & L & ->).
      cbn [m_find_as_hand mixed_of_committed ch_left ch_right aget] in A. unfold find_as_hand, hand_of in A.
      destruct (aget Nat.eqb i (righthand_of o)) as [q|] eqn:Aq; [|discriminate]. injection A as <-.
      apply (wide_back cfg snap _ W0) in Rp. destruct Rp as (op & Lp & ->).
      apply (find_map_from earned_state (fun _ _ => True)) in E; [| |exact H].
      2:{ exact K. }
      destruct E as ([cond rule] & s1 & s2 & I & H1 & E). exists k. split; [reflexivity|].
      cbn [m_iter_hand_of mixed_of_committed ch_right aget] in I. apply in_flat_map in I. destruct I as ([cn rn] & I & J).
      destruct J as [[= <- <-]|[]]. apply (Permutation_in _ (F _ _ _)) in I. unfold hand_of in I.
      assert (G : exists rule, aget Nat.eqb cn (righthand_of op) = Some rule).
      { clear - I. induction (righthand_of op) as [|[a b] l IH]; [destruct I|]. cbn. destruct (Nat.eqb_spec cn a); [eauto|].
        destruct I as [[= -> ->]|I]; [contradiction|auto]. }
      destruct G as [rule G]. apply sb in E. destruct E as (ct & s3 & E1 & E).
      pose proof (keep _ _ _ _ (kp_to_ast _ _ _ _ (OB n (le_n n)) e _ Pe) H1 E1) as H3.
      apply at_some in E. destruct E as ([u w] & s4 & E2 & E).
      pose proof (keep _ _ _ _ (kp_reduce _ _ _ _ (OB n (le_n n)) e _ Pe) H3 E2) as H4.
      apply opt_some in E. destruct E as (x & Tx & E). apply at_some in E. destruct E as (y & s5 & E3 & E).
      apply sb in E. destruct E as (xt & s6 & E4 & E). apply sb in E. destruct E as (rt & s7 & E5 & E). injection E as -> _ _.
      unfold is_concrete_type in E3. apply sb in E3. destruct E3 as (ty & s8 & E3 & E6). apply lifted in E3.
      destruct E3 as [Ty ->].
      assert (T : ty = Some CTrue) by (destruct ty as [[]|]; try discriminate E6; reflexivity). subst ty.
      injection E6 as <- <-.
      exists i, q, cn, rule, ct, u, x. split; [exact Bi|]. split; [apply LR; right; exists o; auto|].
      split; [apply LR; right; exists op; auto|]. split; [exists n, s1, s3; auto|].
      split; [exists n, s3, w, s4; auto|]. split; [exact Tx|]. split; [eapply wide_type; [exact W0|exact Ty]|].
      exists n, s4, s6. auto.
    - assert (H1 : earned_state s1).
      { refine (keep _ _ _ _ _ H E1). apply (kp_opt_then _ _ _ _ _ _ _ _ laws). intros q.
        apply (kp_bind _ _ _ _ _ _ _ _ laws); [apply (read_kp _ _ _ _ _ _ _ _ laws)|intros cm].
        apply (kp_find_map _ _ _ _ _ _ _ _ laws). exact K. }
      rewrite Id in E. apply sb in E. destruct E as (cached & s2 & E2 & E). injection E2 as E2 <-.
      destruct cached as [rr|].
      + injection E as -> _. apply (aget_in _ cid_eqb_spec) in E2. destruct H1 as (_ & _ & H1 & _).
        apply H1 in E2. exact (earned_implied _ _ _ E2).
      + apply sb in E. destruct E as (t & s3 & E3 & E). apply sb in E. destruct E as (rr & s4 & E4 & E).
        apply sb in E. destruct E as ([] & s5 & _ & E). injection E as -> _.
        exists e. split; [exact Pe|]. right. exists t. split; [exists n, s1, s3; auto|].
        eapply inferred_applied; [exact Pe| |exact E4].
        exact (keep _ _ _ _ (kp_to_ast _ _ _ _ (OB n (le_n n)) e c Pe) H1 E3).
  Qed.

  Lemma pair_not_inferred n e l r s t' i why s' :
    reduce_pair cfg snap rf (ops n) e l r s = Ok (Some (t', RInference i why), s') -> False.
  Proof.
    unfold reduce_pair. intros E. apply or_else_some in E. destruct E as [E|(s1 & _ & E)].
    { destruct (t_exp r) as [[rl rr]|]; [|discriminate]. cbn [opt_then] in E.
      unfold reduce_by_expanded_right_branch in E. apply sb in E. destruct E as (ty & s2 & _ & E).
      destruct ty as [[]|]; try discriminate.
      - apply at_some in E. destruct E as ([x why1] & s3 & E1 & E). apply at_some in E.
        destruct E as (x1 & s4 & _ & E). injection E as _ E _. subst why1. unfold determine_reduction_truth in E1.
        destruct (key_eqb _ _); [discriminate|]. apply sb in E1. destruct E1 as (lr & s5 & _ & E1).
        apply sb in E1. destruct E1 as (rl' & s6 & _ & E1). destruct lr, rl'; discriminate.
      - apply sb in E. destruct E as ([c cr] & s3 & _ & E). apply at_some in E.
        destruct E as (x & s4 & _ & E). discriminate. }
    apply or_else_some in E. destruct E as [E|(s2 & _ & E)].
    { destruct (t_exp l) as [[ll lr]|]; [|discriminate]. cbn [opt_then] in E.
      unfold reduce_by_expanded_left_branch in E. apply sb in E. destruct E as (ty & s2 & _ & E).
      destruct (_ && _); [|discriminate]. apply sb in E. destruct E as (o & s3 & _ & E).
      apply sb in E. destruct E as (id & s4 & _ & E). apply sb in E. destruct E as (x & s5 & _ & E).
      apply at_some in E. destruct E as (subs & s6 & _ & E). apply sb in E. destruct E as (y & s7 & _ & E).
      discriminate. }
    unfold recursively_reduce_pair in E. apply sb in E. destruct E as (lr & s3 & _ & E).
    apply sb in E. destruct E as (rr & s4 & _ & E). apply sb in E. destruct E as (h & s5 & _ & E).
    assert (P : forall p s t (s' : sstate), partial_reason cfg p s = Ok (t, s') -> exists q, t = RPartial q).
    { intros p sa t sb0 H. unfold partial_reason in H. apply sb in H. destruct H as (q & sc & _ & H).
      injection H as <- _. eauto. }
    destruct lr as [[lt lw]|], rr as [[rt rw]|];
      try (apply sb in E; destruct E as (u & s6 & _ & E); apply sb in E; destruct E as (p & s7 & E1 & E);
           injection E as _ E _; apply P in E1; destruct E1 as [q ->]; discriminate).
    apply sb in E. destruct E as (u & s6 & E1 & E).
    apply sb in E. destruct E as (gs & s7 & _ & E). apply sb in E. destruct E as (gs' & s8 & _ & E).
    apply find_map_some in E. destruct E as (g & s9 & s10 & _ & E). apply try_rule_used in E.
    destruct E as (gt' & m' & why' & E & _). discriminate.
  Qed.
  Lemma concept_implied n e c s r i why s' : placed e -> earned_state s ->
    reduce_concept cfg snap rf (ops n) e c s = Ok (Some (r, RInference i why), s') -> implied c r.
  Proof.
    intros Pe H E. unfold reduce_concept in E. apply sb in E. destruct E as (m & s1 & E1 & E).
    apply read_ok in E1. destruct E1 as [R ->]. apply or_some in E. destruct E as [E|(s2 & _ & E)].
    - destruct (smem _ _ _); [discriminate|]. exact (infer_implied _ _ _ _ _ _ _ _ Pe H R E).
    - exfalso. destruct (m_reduction m); [|discriminate]. cbn [opt_then] in E. apply sb in E.
      destruct E as (v & s7 & _ & E). apply at_some in E. destruct E as (y & s8 & _ & E). discriminate E.
  Qed.
  Lemma fresh_implied n e t s r i why s' : placed e -> earned_state s ->
    lookup_red (e_reds e) (t_key t) (s_red s) = None ->
    o_reduce (ops n) e t s = Ok (Some (r, RInference i why), s') -> exists c, t_concept t = Some c /\ implied c r.
  Proof.
    intros Pe H K E. destruct n as [|n]; [discriminate|]. cbn [search step o_reduce] in E. unfold reduce in E.
    apply sb in E. destruct E as (cached & s1 & E1 & E). unfold cached_reduction in E1. rewrite K in E1. injection E1 as <- <-.
    apply sb in E. destruct E as (cc & s2 & E2 & E).
    assert (s2 = s).
    { destruct (t_concept t); [|now injection E2]. apply lifted in E2. apply E2. }
    subst s2. destruct cc; [discriminate|].
    apply sb in E. destruct E as (rr & s3 & E1 & E). apply sb in E. destruct E as ([] & s4 & _ & E).
    injection E as -> _. apply or_some in E1. destruct E1 as [E1|(s5 & _ & E1)].
    - destruct (t_concept t) as [c|]; [|discriminate]. cbn [opt_then] in E1. exists c. split; [reflexivity|].
      exact (concept_implied _ _ _ _ _ _ _ _ Pe H E1).
    - exfalso. destruct (t_exp t) as [[a b]|]; [|discriminate]. cbn [opt_then] in E1.
      exact (pair_not_inferred _ _ _ _ _ _ _ _ _ E1).
  Qed.
  Lemma found_in hs k reds r : lookup_red hs k reds = Some r -> exists h, In (k, r) (nth h reds []).
  Proof.
    induction hs as [|h hs IH]; [discriminate|]. cbn. destruct (aget _ _ _) eqn:A; [|exact IH].
    intros [= ->]. exists h. exact (aget_in _ key_eqb_spec _ _ _ A).
  Qed.
  Lemma key_implied own k r i why : earned_reduction cfg snap rf d own k (Some (r, RInference i why)) ->
    exists c, snd k = Some c /\ implied c r.
  Proof.
    intros K. inversion K as [own' n e t s r' s' St H1 H2 H3 H4 H5 M E Eo Ek Er]; subst.
    apply (fresh_implied n e t s r i why s'); [apply setting_placed in St; exact St| |exact M|exact E].
    split; [|split; [|split; [|split]]]; assumption.
  Qed.
  (** A reduction that is put down to an implication comes from one. *)
  Lemma reduction_implied n e t s r i why s' : placed e -> earned_state s ->
    o_reduce (ops n) e t s = Ok (Some (r, RInference i why), s') -> exists c, t_concept t = Some c /\ implied c r.
  Proof.
    intros Pe H E. destruct (lookup_red (e_reds e) (t_key t) (s_red s)) as [rr|] eqn:K.
    2:{ exact (fresh_implied _ _ _ _ _ _ _ _ Pe H K E). }
    destruct n as [|n]; [discriminate|]. cbn [search step o_reduce] in E. unfold reduce in E.
    apply sb in E. destruct E as (cached & s1 & E1 & E). unfold cached_reduction in E1. rewrite K in E1. injection E1 as <- <-.
    injection E as -> _. apply found_in in K. destruct K as [h K]. apply (proj1 H) in K.
    exact (key_implied _ _ _ _ _ K).
  Qed.
End Implications.
