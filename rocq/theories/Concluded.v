(** Concepts that follow from something declared to be true (zia/src/context_search.rs:101-197). *)
From Verif Require Import Start Snapshot Search Context LexerSpec StoreSpec StoreInv NameSpec Names StoreFacts
  MapFacts AstSpec AstFacts RangeFacts History Steps SearchKeeps SearchCaches Questions Existence Wide Earned Repeat CacheLife
  Quiet Displays Matches Implications Asking Shapes Unruled Answers Clean Replies Keyed Flat Circular.
From Coq Require Import List PeanoNat Bool.
Import ListNotations.
Local Open Scope zia_scope.

(** ** Specification *)
Section Spec.
  Variable s : snapshot.
  (** A symbol declared to be true, about which nothing can be inferred. *)
  Definition declared_true (x : nat) : Prop :=
    (exists z v, ends s x z v) /\ exists t, built_in s t CTrue /\ reduces s x t.
  (** A symbol that follows from symbols declared to be true: it is implied by one that is, or that follows.
      The others that imply it may be any symbols that are evaluated by following their declarations. *)
  Inductive follows : nat -> Prop :=
  | Follows k x : leaf_variable s k Constant -> implied_by s k x -> declared_true x \/ follows x ->
      (forall y, implied_by s k y -> (exists z v, ends s y z v) \/ follows y) -> follows k.
End Spec.

Section Store.
  Variables (cfg : config) (snap : snapshot) (fuel : nat).
  Hypothesis F : fair cfg.
  Hypothesis N : self_numbered snap.
  Hypothesis LC : compositions_are_listed snap.
  Hypothesis LR : listed_compositions_are_real snap.
  Hypothesis UC : compositions_are_unique snap.
  Hypothesis UL : forall a b, built_in snap a CLabel -> built_in snap b CLabel -> a = b.
  Variable lab : nat.
  Hypothesis CI : concrete_concept_id cfg snap delta_default CLabel = Ok (Some (Committed lab)).
  Hypothesis BL : built_in snap lab CLabel.
  Hypothesis BI : forall cc c, concrete_concept_id cfg snap delta_default cc = Ok (Some c) -> is_built_in snap c cc.
  Hypothesis ON : operators_named snap.
  Variable imp : nat.
  Hypothesis CM : concrete_concept_id cfg snap delta_default CImplication = Ok (Some (Committed imp)).
  Hypothesis UM : forall a, built_in snap a CImplication -> a = imp.
  Hypothesis BM : built_in snap imp CImplication.
  Hypothesis HK : hands_keyed snap.
  Variable extra : text -> rresult -> Prop.
  Notation ops n := (search cfg snap fuel n).
  Notation leaf_of := (leaf_of cfg snap fuel).
  Notation own := (new_env delta_default []).
  Notation quiet := (quiet cfg snap fuel).
  Notation good := (good cfg snap fuel extra).
  Notation plain_symbol := (plain_symbol snap).

  (** What is newly remembered is about plain symbols. *)
  Definition framed (s s' : sstate) : Prop := forall x c r, In ((x, c), r) (nth 0 (s_red s') []) ->
    In ((x, c), r) (nth 0 (s_red s) []) \/ exists k w, c = Some (Committed k) /\ plain_symbol k w.
  Lemma framed_refl s : framed s s.
  Proof. intros x c r. auto. Qed.
  Lemma untouched_framed s s' : untouched s s' -> framed s s'.
  Proof. intros U x c r X. rewrite U in X. auto. Qed.
  Lemma reduce_framed n k z v x kk s r s' : ends snap k z v -> good s ->
    o_reduce (ops n) own (TLeaf x (Some (Committed k)) kk) s = Ok (r, s') -> framed s s'.
  Proof.
    intros En (H & _ & _) E.
    destruct n as [|n]; [discriminate|]. cbn [search step o_reduce] in E. unfold reduce in E.
    apply sb in E. destruct E as (cached & s1 & C & E). injection C as C <-. destruct cached as [rr|].
    { injection E as <- <-. apply framed_refl. }
    clear C. apply sb in E. destruct E as (cc & s1 & Ec & E). cbn [t_concept] in Ec. apply lifted in Ec. destruct Ec as [Ty ->].
    assert (Bc : forall c, built_in snap k c -> cc <> None).
    { intros c (o & L & S) ->. unfold concrete_concept_type, omap in Ty. apply obind_ok in Ty. destruct Ty as (m & R & [= Q]).
      apply (wide_back cfg snap _ (WidensSame _)) in R. destruct R as (o' & L' & ->). rewrite L in L'. injection L' as <-.
      cbn in Q. unfold get_concrete in Q. rewrite S in Q. discriminate. }
    destruct cc as [cc|]; [injection E as <- <-; apply framed_refl|].
    assert (Pl : exists w, plain_symbol k w).
    { destruct En as [z w Pz _|z c w B _|k w q z v Pz _ _]; [eauto| |eauto]. exfalso. exact (Bc _ B eq_refl). }
    destruct Pl as [w Pk].
    apply sb in E. destruct E as (rr & s1 & Er & E). cbn [t_exp opt_then] in Er.
    apply sb in E. destruct E as ([] & s2 & Ei & E). injection E as <- <-.
    assert (G : untouched s s1).
    { unfold or_else at 1 in Er. apply sb in Er. destruct Er as (o1 & s3 & Er & Eo).
      assert (o1 = rr /\ s3 = s1) by (destruct o1; [injection Eo as <- <-|injection Eo as <- <-]; auto). destruct H0 as [-> ->]. clear Eo.
      cbn [t_concept opt_then] in Er. unfold reduce_concept in Er. apply sb in Er. destruct Er as (m & s3 & R & Er).
      apply read_ok in R. destruct R as [R ->]. cbn [new_env e_infer smem existsb] in Er.
      unfold or_else in Er. apply sb in Er. destruct Er as (o2 & s3 & E2 & Er).
      destruct (own_infer cfg snap fuel F N LC LR UL lab CI BL BI ON _ _ _ _ _ _ _ Pk H R E2) as (-> & H3 & U3). unfold known in R.
      apply (wide_back cfg snap _ (WidensSame _)) in R. destruct R as (o & L & ->).
      cbn [m_reduction mixed_of_committed] in Er. destruct (get_reduction o) as [q|] eqn:G; cbn [option_map opt_then] in Er.
      - assert (Re : reduces snap k q).
        { unfold get_reduction in G. destruct (c_spec o) as [|comp [y|]|] eqn:S; try discriminate. injection G as ->.
          exists o, comp. auto. }
        assert (Eq : exists z' v', ends snap q z' v').
        { destruct En as [z w' _ Nr|z c w' B _|k w' q' z v _ Re' En'].
          - exfalso. exact (Nr _ Re).
          - exfalso. exact (Bc _ B eq_refl).
          - assert (q' = q). { destruct Re as (c1 & m1 & L1 & S1), Re' as (c2 & m2 & L2 & S2). congruence. }
            subst q'. eauto. }
        destruct Eq as (z' & v' & Eq). pose proof (ends_elementary _ _ _ _ Eq) as Elq.
        apply sb in Er. destruct Er as (b & s4 & Eb & Er).
        assert (b = false /\ s4 = s3).
        { unfold is_leaf_variable_concept in Eb. apply sb in Eb. destruct Eb as (f & s5 & Ef & Eb).
          unfold is_free_variable in Ef. apply sb in Ef. destruct Ef as (m & s6 & Rm & [= <- <-]).
          apply read_ok in Rm. destruct Rm as [Rm ->]. unfold known in Rm.
          apply (wide_back cfg snap _ (WidensSame _)) in Rm. destruct Rm as (oq & Lq & ->).
          assert (m_free (mixed_of_committed oq) = false).
          { cbn. unfold free_variable.
            destruct Elq as [(c & c1 & L1 & S1)|(c1 & rd & L1 & S1)]; rewrite Lq in L1; injection L1 as <-; rewrite S1; reflexivity. }
          rewrite H0 in Eb. cbn [andb] in Eb. now injection Eb as <- <-. }
        destruct H0 as [-> ->]. unfold and_then, smap in Er. apply sb in Er. destruct Er as (o3 & s5 & Et & Er).
        apply sb in Et. destruct Et as (u & s6 & Et & [= <- <-]). injection Er as <- <-.
        destruct (own_tree cfg snap fuel F N LR _ _ _ _ _ Elq H3 Et) as (_ & _ & U6). unfold untouched in *. congruence.
      - injection Er as <- <-. exact U3. }
    unfold insert_reduction in Ei. injection Ei as <-. apply untouched_framed in G.
    match goal with |- context [if ?b then _ else _] => destruct b end; [|exact G].
    intros x' c' r' X. cbn [s_red] in X.
    apply (in_upd 0 (aset key_eqb (t_key (TLeaf x (Some (Committed k)) kk)) rr)) in X. destruct X as [X|[_ X]]; [exact (G _ _ _ X)|].
    apply (in_aset _ key_eqb_spec) in X. destruct X as [[Q _]|X]; [|exact (G _ _ _ X)].
    right. exists k, w. unfold t_key in Q. cbn in Q. split; [congruence|exact Pk].
  Qed.

  (** What is remembered about built-in concepts and about symbols that no rule is about: nothing. *)
  Definition steady (s : sstate) : Prop := shaped cfg snap fuel s /\
    (forall k w r, In (Committed k, r) (s_inf s) -> settled_symbol snap k w -> r = None) /\
    (forall j x k cc r, In ((x, Some (Committed k)), r) (nth j (s_red s) []) -> built_in snap k cc -> r = None).
  Lemma settled_shape k w t : settled_symbol snap k w -> shape cfg snap fuel k t -> leaf_of k t.
  Proof. intros (El & _). exact (elementary_leaf cfg snap fuel k t El). Qed.
  Lemma built_in_reduce n e t k cc s r s' : simple snap e -> t_concept t = Some (Committed k) -> built_in snap k cc ->
    lookup_red (e_reds e) (t_key t) (s_red s) = None -> o_reduce (ops n) e t s = Ok (r, s') -> r = None.
  Proof.
    intros Se Tc (o & L & Sp) C E. destruct n as [|n]; [discriminate|]. cbn [search step o_reduce] in E. unfold reduce in E.
    apply sb in E. destruct E as (cached & s1 & C' & E). injection C' as C' <-. rewrite C in C'. subst cached. rewrite Tc in E.
    apply sb in E. destruct E as (ty & s1 & Ec & E). apply lifted in Ec. destruct Ec as [Ty ->].
    destruct ty as [ty|]; [now injection E as <- <-|]. exfalso.
    unfold concrete_concept_type, omap in Ty. apply obind_ok in Ty. destruct Ty as (m & R & [= Q]).
    apply (wide_back cfg snap _ (proj1 Se)) in R. destruct R as (o' & L' & ->). rewrite L in L'. injection L' as <-.
    cbn in Q. unfold get_concrete in Q. rewrite Sp in Q. discriminate.
  Qed.
  Lemma steady_laws : cache_laws cfg snap fuel steady (fun _ _ => True) (simple snap) (simple snap) (fun _ => True).
  Proof.
    pose proof (shape_laws cfg snap fuel N LR F) as SL.
    constructor; try (intros; exact I); try (intros; assumption).
    - intros s n (H1 & H2 & H3). split; [split; [exact H1|split; assumption]|exact I].
    - intros s h s' (H1 & H2 & H3) [= <- <-]. split; [exact I|]. split; [|exact I]. split; [exact H1|]. split; [exact H2|].
      intros j x k cc r X. cbn [s_red] in X. apply in_more in X. exact (H3 _ _ _ _ _ X).
    - intros e h d s e' s' Se _ Wd (H1 & H2 & H3) E. split; [exact (simple_spawn _ _ _ _ _ _ _ Se Wd E)|]. split; [|exact I].
      unfold spawn in E. apply sb in E. destruct E as (sy & s1 & [= <- <-] & [= _ <-]). split; [apply shaped_more, H1|]. split; assumption.
    - intros e e0 vm ml t g s s1 Se S0 _ E Pu. exact (simple_mask _ _ _ _ _ _ _ _ _ _ Se S0 E Pu).
    - intros e c. apply simple_infer.
    - intros n e t s r s1 s2 Se _ C (H1 & H2 & H3) _ E O. split; [|exact I]. unfold insert_reduction in E. injection E as <-.
      match goal with |- context [if ?b then _ else _] => destruct b end; [|split; [exact H1|split; assumption]].
      split; [exact H1|]. split; [exact H2|]. intros j x k cc r' X B. cbn [s_red] in X.
      apply in_upd in X. destruct X as [X|[_ X]]; [exact (H3 _ _ _ _ _ X B)|].
      apply (in_aset _ key_eqb_spec) in X. destruct X as [[Q ->]|X]; [|exact (H3 _ _ _ _ _ X B)].
      refine (built_in_reduce _ _ _ _ _ _ _ _ Se _ B C O). unfold t_key in Q. destruct (t_concept t); injection Q; congruence.
    - intros n e c m t s s1 s2 Se (H1 & H2 & H3) C1 C2 R (K1 & K2 & K3) _ E K T. split; [|exact I].
      assert (Sh : shaped cfg snap fuel s2).
      { refine (shaped_insert _ _ _ N e c m t s1 s2 K1 R _ E). intros k ->.
        exact (tree_shape _ _ _ N LR F _ _ _ _ _ _ Se H1 T). }
      unfold insert_syntax in E. injection E as <-. destruct (m_anonymous m); (split; [exact Sh|split; assumption]).
    - intros n e c t r s s1 s2 Se _ (H1 & _) (K1 & _) _ (G1 & G2 & G3) _ E1 E2. split; [|exact I].
      split; [exact G1|]. split; [|exact G3]. intros k w q X Pk. cbn [s_inf] in X.
      apply (in_aset _ cid_eqb_spec) in X. destruct X as [[<- ->]|X]; [|exact (G2 _ _ _ X Pk)].
      apply (shape_nothing cfg snap fuel F N LC LR UL lab CI BL BI ON n e k w t s1 r s2 Se Pk); [|exact K1|exact E2].
      apply (settled_shape _ _ _ Pk). exact (tree_shape _ _ _ N LR F _ _ _ _ _ _ Se H1 E1).
  Qed.
  Lemma own_simple' : simple snap own.
  Proof. exact (own_simple snap). Qed.
  Lemma steady_reduce n t s r s' : steady s -> o_reduce (ops n) own t s = Ok (r, s') -> steady s'.
  Proof. intros H E. exact (proj1 (kp_reduce _ _ _ _ (search_kp _ _ _ _ _ _ _ _ steady_laws n) own t own_simple' _ _ _ H E)). Qed.
  Lemma steady_tree n c s t s' : steady s -> o_to_ast (ops n) own c s = Ok (t, s') -> steady s'.
  Proof. intros H E. exact (proj1 (kp_to_ast _ _ _ _ (search_kp _ _ _ _ _ _ _ _ steady_laws n) own c own_simple' _ _ _ H E)). Qed.
  Lemma steady_nf n t w s r s' : steady s -> o_nf (ops n) own t w s = Ok (r, s') -> steady s'.
  Proof. intros H E. exact (proj1 (kp_nf _ _ _ _ (search_kp _ _ _ _ _ _ _ _ steady_laws n) own t w own_simple' _ _ _ H E)). Qed.
  Lemma steady_expand n t s r s' : steady s -> o_expand (ops n) own t s = Ok (r, s') -> steady s'.
  Proof. intros H E. exact (proj1 (kp_expand _ _ _ _ (search_kp _ _ _ _ _ _ _ _ steady_laws n) own t own_simple' _ _ _ H E)). Qed.
  Lemma built_in_tree n k cc s t s' : built_in snap k cc -> steady s -> o_to_ast (ops n) own (Committed k) s = Ok (t, s') -> leaf_of k t.
  Proof.
    intros B H E. apply (elementary_leaf cfg snap fuel); [left; eauto|]. exact (tree_shape _ _ _ N LR F _ _ _ _ _ _ own_simple' (proj1 H) E).
  Qed.
  Lemma built_in_normal_form n k cc t why s r s' : built_in snap k cc -> leaf_of k t -> steady s -> o_nf (ops n) own t why s = Ok (r, s') -> fst r = t.
  Proof.
    intros B Lf H E. destruct n as [|n]; [discriminate|]. cbn [search step o_nf] in E. unfold normal_form in E. apply sb in E. destruct E as (rr & s1 & Er & E).
    assert (rr = None) as ->; [|injection E as <- <-; reflexivity].
    destruct (leaf_is _ _ _ N _ _ Lf) as (x & kk & ->).
    destruct (lookup_red (e_reds own) (t_key (TLeaf x (Some (Committed k)) kk)) (s_red s)) as [y|] eqn:C.
    2:{ exact (built_in_reduce n own (TLeaf x (Some (Committed k)) kk) k cc s rr s1 own_simple' eq_refl B C Er). }
    destruct n as [|n]; [discriminate|]. cbn [search step o_reduce] in Er. unfold reduce in Er.
    apply sb in Er. destruct Er as (cached & s2 & C' & Er). injection C' as C' <-. assert (Q : cached = Some y) by (rewrite <- C'; exact C). rewrite Q in Er. clear Q C' cached. injection Er as <- <-.
    cbn [new_env e_reds lookup_red] in C. destruct (aget _ _ _) as [z|] eqn:A; [|discriminate]. injection C as <-.
    apply (aget_in _ key_eqb_spec) in A. exact (proj2 (proj2 H) 0 _ _ _ _ A B).
  Qed.

  (** Nothing is remembered yet about a symbol that follows from others. *)
  Definition fresh (s : sstate) : Prop := good s /\ steady s /\
    forall k x r, follows snap k -> ~ In ((x, Some (Committed k)), r) (nth 0 (s_red s) []).
  Lemma follows_implied k w : follows snap k -> ~ plain_symbol k w.
  Proof. intros [k' x _ (i & p & q & B & C & _) _ _] (_ & _ & P). exact (P _ _ B C). Qed.
  Lemma framed_fresh s s' : fresh s -> good s' -> steady s' -> framed s s' -> fresh s'.
  Proof.
    intros (_ & _ & U) G St Fr. split; [exact G|]. split; [exact St|]. intros k x r Fo X. apply Fr in X. destruct X as [X|(k' & w & Q & P)]; [exact (U _ _ _ Fo X)|].
    injection Q as ->. exact (follows_implied _ _ Fo P).
  Qed.
  Lemma follows_elementary k : follows snap k -> elementary snap k.
  Proof. intros [k' x C _ _ _]. right. exact C. Qed.
  Lemma fresh_tree n k s t s' : elementary snap k -> fresh s -> o_to_ast (ops n) own (Committed k) s = Ok (t, s') -> leaf_of k t /\ fresh s'.
  Proof.
    intros El Fr E. pose proof Fr as ((Q & So & Fi) & St & U). destruct (own_tree cfg snap fuel F N LR n k s t s' El Q E) as (Lf & Q' & V).
    split; [exact Lf|]. refine (framed_fresh _ _ Fr _ (steady_tree _ _ _ _ _ St E) (untouched_framed _ _ V)). unfold untouched in V.
    split; [exact Q'|]. split; [intros k' z v x r En X; rewrite V in X; exact (So _ _ _ _ _ En X)|intros x r X; rewrite V in X; exact (Fi _ _ X)].
  Qed.
  (** A leaf for the built-in concept `true`. *)
  Definition truth (r : rresult) : Prop := exists t u why, built_in snap t CTrue /\ leaf_of t u /\ r = Some (u, why).
  Lemma type_of k cc : concrete_concept_type cfg snap delta_default (Committed k) = Ok cc -> forall c, built_in snap k c <-> cc = Some c.
  Proof.
    intros Ty c. split.
    - intros (o & L & S). unfold concrete_concept_type, omap in Ty. apply obind_ok in Ty. destruct Ty as (m & R & [= <-]).
      apply (wide_back cfg snap _ (WidensSame _)) in R. destruct R as (o' & L' & ->). rewrite L in L'. injection L' as <-.
      cbn. unfold get_concrete. rewrite S. reflexivity.
    - intros ->. apply (wide_type cfg snap _ (WidensSame _)) in Ty. destruct Ty as (k' & [= <-] & B). exact B.
  Qed.

  Lemma built_in_dec k cc : built_in snap k cc \/ ~ built_in snap k cc.
  Proof.
    destruct (lookup snap k) as [o|] eqn:L; [|right; intros (o & L' & _); congruence].
    destruct (c_spec o) as [c| |] eqn:Sp; try (right; intros (o' & L' & S'); congruence).
    destruct (cct_eqb_spec c cc) as [->|Ne]; [left; exists o; auto|right; intros (o' & L' & S'); congruence].
  Qed.
  Lemma ends_not_follows k : (exists z v, ends snap k z v) -> ~ follows snap k /\ True.
  Proof.
    intros (z & v & En). split; [|exact I]. intros Fo.
    assert (C : leaf_variable snap k Constant) by (destruct Fo; assumption). destruct C as (o & red & L & Sp).
    destruct En as [z w P _|z cc w (o' & L' & S') _|k w q z v P _ _]; [exact (follows_implied _ _ Fo P)|congruence|exact (follows_implied _ _ Fo P)].
  Qed.
  Lemma follows_reduce n : forall k t s r s', follows snap k -> leaf_of k t -> fresh s ->
    o_reduce (ops n) own t s = Ok (r, s') -> truth r.
  Proof.
    induction n as [|n IH]; intros k t s r s' Fo Lf Fr E; [discriminate|].
    destruct (leaf_is _ _ _ N _ _ Lf) as (x & kk & ->). cbn [search step o_reduce] in E. unfold reduce in E.
    apply sb in E. destruct E as (cached & s1 & C & E). injection C as C <-. destruct cached as [rr|].
    { exfalso. cbn [new_env e_reds lookup_red] in C. destruct (aget _ _ _) as [y|] eqn:A; [|discriminate].
      apply (aget_in _ key_eqb_spec) in A. exact (proj2 (proj2 Fr) _ _ _ Fo A). }
    clear C. destruct Fo as [k y (o & red & L & Sp) Iy Gy Al].
    apply sb in E. destruct E as (cc & s1 & Ec & E). cbn [t_concept] in Ec. apply lifted in Ec. destruct Ec as [Ty ->].
    destruct cc as [cc|].
    { exfalso. apply (wide_type cfg snap _ (WidensSame _)) in Ty. destruct Ty as (k' & [= <-] & (c' & L' & S')). congruence. }
    apply sb in E. destruct E as (rr & s1 & Er & E). apply sb in E. destruct E as ([] & s2 & _ & [= <- <-]).
    unfold or_else at 1 in Er. apply sb in Er. destruct Er as (o1 & s3 & Er & Er').
    cbn [t_concept opt_then] in Er. unfold reduce_concept in Er. apply sb in Er. destruct Er as (m & s4 & R & Er).
    apply read_ok in R. destruct R as [R ->]. cbn [new_env e_infer smem existsb] in Er.
    unfold or_else in Er. apply sb in Er. destruct Er as (o2 & s4 & E2 & Er).
    assert (T : truth o2).
    2:{ destruct T as (t' & u & why & B & Lu & ->). injection Er as <- <-. injection Er' as <- <-. exists t', u, why. auto. }
    clear Er Er' Ty o1 s3 rr s1 s2.
    unfold known in R. apply (wide_back cfg snap _ (WidensSame _)) in R. destruct R as (o' & L' & ->). rewrite L in L'. injection L' as <-.
    unfold infer_reduction, and_then in E2. apply sb in E2. destruct E2 as (im & s5 & E1 & E2).
    apply lifted in E1. destruct E1 as [Ci ->]. cbn [new_env e_delta] in Ci. rewrite CM in Ci. injection Ci as <-.
    destruct Iy as (im & p & q & Bi & Cp & Cq). rewrite (UM _ Bi) in Cp. clear im Bi.
    unfold or_else at 1 in E2. apply sb in E2. destruct E2 as (o3 & s5 & E2 & E3).
    assert (T : truth o3).
    2:{ destruct T as (t' & u & why & B & Lu & ->). injection E3 as <- <-. exists t', u, why. auto. }
    clear E3 o2 s4.
    cbn [m_find_as_hand mixed_of_committed ch_right aget] in E2. unfold find_as_hand, hand_of in E2.
    destruct (LC _ _ _ Cp) as [_ (o' & L' & A)]. rewrite L in L'. injection L' as <-. rewrite A in E2. cbn [option_map opt_then] in E2.
    apply sb in E2. destruct E2 as (cm & s6 & R & E2). apply read_ok in R. destruct R as [R ->].
    unfold known in R. apply (wide_back cfg snap _ (WidensSame _)) in R. destruct R as (op & Lp & ->).
    destruct (LC _ _ _ Cq) as [_ (op' & Lp' & Aq)]. rewrite Lp in Lp'. injection Lp' as <-.
    assert (Iq : exists w, In (Committed y, w) (m_iter_hand_of cfg (mixed_of_committed op) HRight)).
    { exists (Committed q). apply (committed_hands cfg F). exists y, q. split; [reflexivity|]. split; [reflexivity|]. exact (aget_listed _ _ _ Aq). }
    assert (Al' : forall z w, In (z, w) (m_iter_hand_of cfg (mixed_of_committed op) HRight) ->
                  exists j, z = Committed j /\ ((exists z v, ends snap j z v) \/ follows snap j)).
    { intros z w J. apply (committed_hands cfg F) in J. destruct J as (j & pj & -> & -> & J). exists j. split; [reflexivity|].
      apply Al. exists imp, p, pj. split; [exact BM|]. split; [exact Cp|]. apply LR. right. exists op. split; [exact Lp|].
      exact (keyed_in _ _ _ (HK _ _ HRight Lp) J). }
    clear Al Lf A Aq Lp Cp Cq. revert s Fr E2 Iq Al'. generalize (m_iter_hand_of cfg (mixed_of_committed op) HRight). intros l.
    induction l as [|[z w] l IL]; intros s Fr E2 (w0 & Iq) Al'; [destruct Iq|].
    destruct (Al' z w (or_introl eq_refl)) as (j & -> & Wj). cbn [find_map] in E2.
    unfold or_else in E2. apply sb in E2. destruct E2 as (o4 & s7 & E2 & E3).
    apply sb in E2. destruct E2 as (cond & s8 & Et & E2).
    assert (Ej : elementary snap j) by (destruct Wj as [(z & v & En)|Fo]; [exact (ends_elementary _ _ _ _ En)|exact (follows_elementary _ Fo)]).
    destruct (fresh_tree _ _ _ _ _ Ej Fr Et) as [Lj F8].
    unfold and_then in E2. apply sb in E2. destruct E2 as (o5 & s9 & Er & E2).
    (* what the rest does once the condition is true *)
    assert (Tr : forall u why t', o5 = Some (u, why) -> leaf_of t' u ->
                 (built_in snap t' CTrue -> truth o4) /\ (~ built_in snap t' CTrue -> o4 = None /\ s7 = s9)).
    { intros u why t' -> Lu. destruct (leaf_is _ _ _ N _ _ Lu) as (xu & ku & ->). cbn [t_concept opt_then] in E2.
      apply sb in E2. destruct E2 as (o6 & s10 & Ei & E2). unfold is_concrete_type in Ei.
      apply sb in Ei. destruct Ei as (ty & s11 & Ei & [= <- <-]). apply lifted in Ei. destruct Ei as [Ty ->].
      pose proof (type_of _ _ Ty CTrue) as TT. destruct ty as [[]|]; cbn in E2;
        try (split; [intros B; apply TT in B; discriminate B|injection E2 as <- <-; auto]).
      split; [|intros B; exfalso; apply B, TT; reflexivity]. intros B.
      apply sb in E2. destruct E2 as (xt & s12 & Ex & E2). apply sb in E2. destruct E2 as (rt & s13 & _ & [= <- <-]).
      exists t', xt, (RInference rt why). split; [exact B|]. split; [|reflexivity].
      exact (built_in_tree _ _ _ _ _ _ B (steady_reduce _ _ _ _ _ (proj1 (proj2 F8)) Er) Ex). }
    destruct Wj as [(z & v & En)|Fo].
    - (* a symbol whose declarations are followed *)
      destruct F8 as (G8 & S8 & U8).
      destruct (own_reduce cfg snap fuel F N LC LR UL lab CI BL BI ON extra _ _ _ _ _ _ _ _ En Lj G8 Er) as [G9 R9].
      assert (F9 : fresh s9).
      { refine (framed_fresh s8 s9 (conj G8 (conj S8 U8)) G9 (steady_reduce _ _ _ _ _ S8 Er) _).
        destruct (leaf_is _ _ _ N _ _ Lj) as (xj & kj & ->). exact (reduce_framed _ _ _ _ _ _ _ _ _ En G8 Er). }
      assert (D : truth o4 \/ (o4 = None /\ s7 = s9 /\ ~ declared_true snap j)).
      { destruct o5 as [[u why]|].
        - destruct R9 as (q' & Re & Lu). destruct (Tr u why q' eq_refl Lu) as [T1 T2].
          destruct (built_in_dec q' CTrue) as [B|B]; [left; exact (T1 B)|]. destruct (T2 B) as [-> ->]. right. split; [reflexivity|]. split; [reflexivity|].
          intros (_ & t' & Bt & Re'). apply B. replace q' with t'; [exact Bt|].
          destruct Re as (c1 & m1 & L1 & S1), Re' as (c2 & m2 & L2 & S2). congruence.
        - injection E2 as <- <-. right. split; [reflexivity|]. split; [reflexivity|]. intros (_ & t' & _ & Re). exact (R9 _ Re). }
      destruct D as [T|(-> & -> & Nd)].
      + destruct T as (t' & u & why & B & Lu & ->). injection E3 as <- <-. exists t', u, why. auto.
      + destruct (ends_not_follows j) as [Nf]; [eauto|].
        refine (IL s9 F9 E3 _ (fun z' w' J => Al' z' w' (or_intror J))). destruct Iq as [[= <- <-]|Iq]; [|eauto].
        exfalso. destruct Gy as [Gy|Gy]; [exact (Nd Gy)|exact (Nf Gy)].
    - destruct (IH _ _ _ _ _ Fo Lj F8 Er) as (t' & u & why & B & Lu & ->). destruct (proj1 (Tr u why t' eq_refl Lu) B) as (t2 & u2 & why2 & B2 & Lu2 & ->).
      injection E3 as <- <-. exists t2, u2, why2. auto.
  Qed.

  (** ** The answer *)
  Definition held (c : ctx) : Prop :=
    c_snap c = snap /\ c_delta c = delta_default /\ c_bound c = [] /\ steady (start_state (c_cache c) (c_tick c)).
  Lemma steady_final s tick : steady s -> steady (start_state (final_cache s) tick).
  Proof.
    intros (H1 & H2 & H3). split; [|split; [exact H2|]].
    - intros h n t X. apply (H1 0). destruct h as [|[|h]]; cbn in X; try destruct X. destruct (s_syn s); exact X.
    - intros j x k cc r X. apply (H3 0 x k cc r). destruct j as [|[|j]]; cbn in X; try destruct X. destruct (s_red s); exact X.
  Qed.
  Lemma steady_empty tick : steady (start_state empty_cache tick).
  Proof. split; [intros [|[|h]] n t []|split; [intros k w r []|intros [|[|j]] x k cc r []]]. Qed.
  Lemma held_search {A} (f : env -> SM A) (Post : A -> Prop) c r c' : held c -> sclean (f own) ->
    (forall s a s', s = start_state (c_cache c) (c_tick c) -> steady s -> f own s = Ok (a, s') -> steady s' /\ Post a) ->
    with_search f c = Ok (r, c') -> held c' /\ exists a, r = Val a /\ Post a.
  Proof.
    intros (H1 & H2 & H3 & H4) Cl K E. unfold with_search in E. rewrite H2, H3 in E.
    destruct (f own (start_state (c_cache c) (c_tick c))) as [[a s]|e|x|] eqn:X; try discriminate.
    - injection E as <- <-. destruct (K _ _ _ eq_refl H4 X) as [G P]. split; [|eauto].
      split; [exact H1|]. split; [reflexivity|]. split; [reflexivity|]. apply steady_final, G.
    - exfalso. exact (Cl _ _ X).
  Qed.
  Variables (tr : nat) (yes : text).
  Hypothesis BT : built_in snap tr CTrue.
  Hypothesis UT : forall a, built_in snap a CTrue -> a = tr.
  Hypothesis ST : settled_symbol snap tr yes.
  Lemma truth_call n t c r c' : leaf_of tr t -> held c -> fst (calls cfg fuel n) t c = Ok (r, c') -> held c' /\ r = Val yes.
  Proof.
    intros Lf H E. destruct n as [|n]; [discriminate|]. cbn [calls fst] in E. unfold call_step in E.
    pose proof (search_clean cfg snap fuel fuel) as Cl.
    destruct (leaf_is _ _ _ N _ _ Lf) as (x & kk & ->). cbn [t_concept t_exp] in E.
    apply bind_back in E. destruct E as (str & c1 & E1 & E).
    apply bind_back in E1. destruct E1 as (m & c2 & E1 & E2). unfold c_read in E1.
    apply lift_clean in E1; [|apply clean_read]. destruct E1 as (-> & m' & -> & R). injection E2 as <- <-.
    assert (H' := H). destruct H' as (S & D & _). rewrite S, D in R.
    rewrite (proj1 (elementary_string cfg snap _ _ (or_introl (ex_intro _ _ BT)) R)) in E. clear R m'.
    unfold on_irreducible in E. apply bind_back in E. destruct E as (y & c1 & E1 & E).
    apply catch_back in E1. destruct E1 as (z1 & -> & E1). unfold try_reducing_then_call in E1.
    apply bind_back in E1. destruct E1 as (nf & c2 & E2 & E1). unfold c_normal_form in E2.
    apply (held_search _ (fun u => u = TLeaf x (Some (Committed tr)) kk)) in E2; [|exact H| |].
    2:{ unfold ops_of. rewrite S. apply sclean_smap, (oc_nf _ Cl). }
    2:{ intros s a s' _ G X. unfold ops_of in X. rewrite S in X. unfold smap in X. apply sb in X.
        destruct X as (a' & s1 & X & [= <- <-]). split; [exact (steady_nf _ _ _ _ _ _ G X)|].
        exact (built_in_normal_form _ _ _ _ _ _ _ _ BT Lf G X). }
    destruct E2 as (H2 & nf' & -> & ->). destruct (key_eqb_spec (t_key (TLeaf x (Some (Committed tr)) kk)) (t_key (TLeaf x (Some (Committed tr)) kk))) as [_|Kn]; [|congruence].
    apply bind_back in E1. destruct E1 as (inf & c3 & E3 & E1). unfold c_inferred in E3.
    assert (H2' := H2). destruct H2' as (S2 & _).
    apply (held_search _ (fun r => r = None)) in E3; [|exact H2| |].
    2:{ unfold ops_of. rewrite S2. apply inferred_clean, Cl. }
    2:{ intros s a s' _ G X. unfold ops_of in X. rewrite S2 in X. split.
        - exact (proj1 (inferred_kp _ _ _ _ _ _ _ _ steady_laws fuel (fun m _ => search_kp _ _ _ _ _ _ _ _ steady_laws m) own _ own_simple' _ _ _ G X)).
        - exact (shape_nothing cfg snap fuel F N LC LR UL lab CI BL BI ON _ _ _ _ _ _ _ _ own_simple' ST Lf (proj1 G) X). }
    destruct E3 as (H3 & a & -> & ->). injection E1 as <- <-. injection E as <- <-. split; [exact H3|].
    destruct (settled_leaf cfg snap fuel LC LR UL lab CI BL _ _ _ ST Lf) as (kd & [= -> ->] & _). reflexivity.
  Qed.
  Lemma follows_normal_form n k t why s r s' : follows snap k -> leaf_of k t -> fresh s -> o_nf (ops n) own t why s = Ok (r, s') -> leaf_of tr (fst r).
  Proof.
    intros Fo Lf Fr X. destruct n as [|n]; [discriminate X|]. cbn [search step o_nf] in X. unfold normal_form in X. apply sb in X. destruct X as (rr & s2 & Er & X).
    pose proof (steady_reduce _ _ _ _ _ (proj1 (proj2 Fr)) Er) as G2. apply (follows_reduce _ _ _ _ _ _ Fo Lf Fr) in Er.
    destruct Er as (t' & u & why' & B & Lu & ->). rewrite (UT _ B) in Lu.
    rewrite (built_in_normal_form _ _ _ _ _ _ _ _ BT Lu G2 X). exact Lu.
  Qed.
  Lemma follows_call n k t c r c' : follows snap k -> leaf_of k t -> held c -> fresh (start_state (c_cache c) (c_tick c)) ->
    fst (calls cfg fuel n) t c = Ok (r, c') -> held c' /\ r = Val yes.
  Proof.
    intros Fo Lf H Fr E. destruct n as [|n]; [discriminate|]. cbn [calls fst] in E. unfold call_step in E.
    pose proof (search_clean cfg snap fuel fuel) as Cl.
    destruct (leaf_is _ _ _ N _ _ Lf) as (x & kk & ->). cbn [t_concept t_exp] in E.
    apply bind_back in E. destruct E as (str & c1 & E1 & E).
    apply bind_back in E1. destruct E1 as (m & c2 & E1 & E2). unfold c_read in E1.
    apply lift_clean in E1; [|apply clean_read]. destruct E1 as (-> & m' & -> & R). injection E2 as <- <-.
    assert (H' := H). destruct H' as (S & D & _). rewrite S, D in R.
    rewrite (proj1 (elementary_string cfg snap _ _ (follows_elementary _ Fo) R)) in E. clear R m'.
    unfold on_irreducible in E. apply bind_back in E. destruct E as (y & c1 & E1 & E).
    apply catch_back in E1. destruct E1 as (z1 & -> & E1). unfold try_reducing_then_call in E1.
    apply bind_back in E1. destruct E1 as (nf & c2 & E2 & E1). unfold c_normal_form in E2.
    apply (held_search _ (leaf_of tr)) in E2; [|exact H| |].
    2:{ unfold ops_of. rewrite S. apply sclean_smap, (oc_nf _ Cl). }
    2:{ intros s a s' -> G X. unfold ops_of in X. rewrite S in X. unfold smap in X. apply sb in X.
        destruct X as (a' & s1 & X & [= <- <-]). split; [exact (steady_nf _ _ _ _ _ _ G X)|].
        exact (follows_normal_form _ _ _ _ _ _ _ Fo Lf Fr X). }
    destruct E2 as (H2 & nf' & -> & Lz). destruct (key_eqb_spec (t_key nf') (t_key (TLeaf x (Some (Committed k)) kk))) as [Ke|Kn].
    - exfalso. destruct (leaf_is _ _ _ N _ _ Lz) as (x' & kk' & ->). unfold t_key in Ke. cbn in Ke.
      assert (k = tr) as -> by congruence. destruct BT as (o & L & Sp).
      assert (C : leaf_variable snap tr Constant) by (destruct Fo; assumption). destruct C as (o' & red & L' & S'). congruence.
    - unfold with_pin in E1. apply obind_ok in E1. destruct E1 as ([r1 c3] & E3 & [= <- <-]).
      apply (truth_call _ _ _ _ _ Lz) in E3; [|exact H2]. destruct E3 as [H3 ->]. injection E as <- <-. split; [exact H3|reflexivity].
  Qed.
  Lemma fresh_expand n k s w kd t s' : follows snap k -> fresh s ->
    o_expand (ops n) own (TLeaf w (Some (Committed k)) kd) s = Ok (t, s') -> fresh s' /\ leaf_of k t.
  Proof.
    intros H U E. destruct n as [|n]; [discriminate|]. cbn [search step o_expand] in E. unfold expand in E.
    cbn [t_concept] in E. apply sb in E. destruct E as (comp & s1 & E1 & E). unfold composition_of_concept, smap in E1.
    apply sb in E1. destruct E1 as (m & s2 & R & [= <- <-]). apply read_ok in R. destruct R as [R ->]. unfold known in R.
    cbn [new_env e_delta] in R. rewrite (proj2 (elementary_string cfg snap _ _ (follows_elementary _ H) R)) in E.
    destruct (fresh_tree n k s t s' (follows_elementary _ H) U E). auto.
  Qed.
  Lemma fresh_final s tick : fresh s -> fresh (start_state (final_cache s) tick).
  Proof.
    intros (G & St & U). split; [apply good_final, G|]. split; [apply steady_final, St|].
    intros k x r H X. apply (U k x r H). cbn in X. destruct (s_red s); exact X.
  Qed.
  Lemma fresh_empty tick : fresh (start_state empty_cache tick).
  Proof. split; [apply good_empty|]. split; [apply steady_empty|]. intros k x r _ []. Qed.
  Lemma follows_run k w c r c' : follows snap k -> means snap w k -> goes_by snap k w -> is_variable_text w = false ->
    held c -> c_cache c = empty_cache -> run_command cfg fuel w c = Ok (r, c') -> held c' /\ r = Val yes.
  Proof.
    intros Fo Me G V H K E. unfold run_command in E. pose proof (search_clean cfg snap fuel fuel) as Cl.
    assert (H' := H). destruct H' as (Sn & D & B & _).
    apply bind_back in E. destruct E as (t & c1 & E1 & E). rewrite <- Sn in Me. destruct (word_read _ _ _ _ _ _ _ F D Me E1) as (kd & -> & ->).
    apply bind_back in E. destruct E as (t & c1 & E2 & E). unfold c_expand, with_search in E2. rewrite D, B in E2.
    destruct (o_expand _ _ _ (start_state (c_cache c) (c_tick c))) as [[a s]|er|si|] eqn:X; try discriminate E2.
    2:{ exfalso. unfold ops_of in X. rewrite Sn in X. exact (oc_expand _ Cl _ _ _ _ X). }
    injection E2 as <- <-. unfold ops_of in X. rewrite Sn, K in X.
    destruct (fresh_expand _ _ _ _ _ _ _ Fo (fresh_empty _) X) as [U Lf].
    apply bind_back in E. destruct E as (u & c2 & E2 & E).
    destruct (named_leaf cfg snap fuel LC LR UL lab CI BL k w a Lf G) as (kk & -> & Kk).
    { intros v (o & L & Sp). assert (C : leaf_variable snap k Constant) by (destruct Fo; assumption). destruct C as (o' & red & L' & Sp'). congruence. }
    specialize (Kk V). cbn [create_variable_concepts] in E2.
    set (c3 := Ctx (c_snap c) delta_default (final_cache s) (c_vars c) [] (pinned c) (s_tick s)) in E2.
    assert (u = Val (TLeaf w (Some (Committed k)) kk) /\ c2 = c3) as [-> ->].
    { destruct kk; try (exfalso; congruence); cbn in E2; injection E2 as <- <-; auto. }
    refine (follows_call fuel k _ c3 r c' Fo Lf _ (fresh_final _ _ U) E).
    split; [exact Sn|]. split; [reflexivity|]. split; [reflexivity|]. apply steady_final, (proj1 (proj2 U)).
  Qed.
  Lemma follows_executed k w c a c' : ready c -> follows snap k -> means snap w k -> goes_by snap k w -> is_variable_text w = false ->
    c_snap c = snap -> c_delta c = delta_default -> c_bound c = [] -> c_cache c = empty_cache ->
    execute cfg fuel w c = Ok (a, c') -> a = yes /\ c_snap c' = snap.
  Proof.
    intros Rd Fo Me G V Sn D B K E. destruct (execute_run cfg fuel w c a c' F Rd E) as (x & c1 & E1 & _ & An & _).
    assert (H : held c) by (split; [exact Sn|split; [exact D|split; [exact B|rewrite K; apply steady_empty]]]).
    destruct (follows_run _ _ _ _ _ Fo Me G V H K E1) as ((S1 & D1 & _) & ->). split; [exact An|].
    destruct (execute_quiet _ _ _ _ _ _ _ _ Rd E E1) as (A1 & _); [unfold recorded; rewrite D1; reflexivity|]. congruence.
  Qed.
End Store.
