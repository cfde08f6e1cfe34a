(** The evaluation of a symbol about which there are only declared reductions. *)
From Verif Require Import Repeat Snapshot Search StoreSpec StoreInv StoreFacts MapFacts AstSpec AstFacts SearchKeeps SearchCaches
  Questions Existence Wide Earned Matches Implications Asking Shapes Unruled.
From Coq Require Import List PeanoNat Bool Permutation.
Import ListNotations.
Local Open Scope zia_scope.

(** ** Specification *)
Section Spec.
  Variable s : snapshot.
  (** [k] is not made of others and has the name [w], and nothing can be inferred about what it reduces to:
      no implication that is known to be true is about that. *)
  Definition elementary (k : nat) : Prop := (exists cc, built_in s k cc) \/ leaf_variable s k Constant.
  Definition settled_symbol (k : nat) (w : text) : Prop :=
    elementary k /\ goes_by s k w /\ is_variable_text w = false /\ unruled s k.
  (** It is moreover not built in, and not the conclusion of an implication. *)
  Definition plain_symbol (k : nat) (w : text) : Prop :=
    settled_symbol k w /\ leaf_variable s k Constant /\
    (forall imp p, built_in s imp CImplication -> ~ composed s p imp k).
  (** Following declared reductions from [k], through such symbols, one gets to [z], which is such a symbol
      without a reduction or a built-in concept, with the name [w]. *)
  Inductive ends : nat -> nat -> text -> Prop :=
  | EndsSymbol z w : plain_symbol z w -> (forall q, ~ reduces s z q) -> ends z z w
  | EndsBuiltIn z cc w : built_in s z cc -> settled_symbol z w -> ends z z w
  | EndsLater k w q z v : plain_symbol k w -> reduces s k q -> ends q z v -> ends k z v.
End Spec.

(** ** Nothing is inferred *)
Section Store.
  Variables (cfg : config) (snap : snapshot) (rf : nat).
  Notation ops n := (search cfg snap rf n).
  Hypothesis F : fair cfg.
  Hypothesis N : self_numbered snap.
  Hypothesis LC : compositions_are_listed snap.
  Hypothesis LR : listed_compositions_are_real snap.
  Hypothesis UC : compositions_are_unique snap.
  Hypothesis UL : forall a b, built_in snap a CLabel -> built_in snap b CLabel -> a = b.
  Variable lab : nat.
  Hypothesis CI : concrete_concept_id cfg snap delta_default CLabel = Ok (Some (Committed lab)).
  Hypothesis BL : built_in snap lab CLabel.
  Hypothesis BI : forall cc c, concrete_concept_id cfg snap delta_default cc = Ok (Some c) -> is_built_in snap c cc.
  Hypothesis ON : operators_named snap.
  Notation simple := (simple snap).
  Notation shaped := (shaped cfg snap rf).
  Notation shape := (shape cfg snap rf).
  Notation leaf_of := (leaf_of cfg snap rf).
  Notation plain_symbol := (plain_symbol snap).
  Notation elementary := (elementary snap).
  Notation settled_symbol := (settled_symbol snap).

  Lemma built_in_leaf n cc t : built_in snap n cc -> shape n t -> leaf_of n t.
  Proof.
    intros (c & L & S) H. apply shape_leaf; [exact H| |].
    - intros (c' & red & L' & S'). congruence.
    - intros a b (c' & fv & bv & red & L' & S'). congruence.
  Qed.
  Lemma plain_leaf k w t : plain_symbol k w -> shape k t -> leaf_of k t.
  Proof.
    intros (_ & (c & red & L & S) & _) H. apply shape_leaf; [exact H| |].
    - intros (c' & red' & L' & S'). congruence.
    - intros a b (c' & fv & bv & red' & L' & S'). congruence.
  Qed.
  (** The leaf of a named concept. *)
  Lemma named_leaf n w t : leaf_of n t -> goes_by snap n w -> (forall v, ~ has_text snap n v) ->
    exists k, t = TLeaf w (Some (Committed n)) k /\ (is_variable_text w = false -> k <> LVariable).
  Proof.
    intros (o & lb & L & El & Et) G T. unfold label_for in El.
    destruct (get_string o) as [x|] eqn:S.
    { exfalso. apply (T x). exists o. split; [exact L|]. unfold get_string in S. destruct (c_spec o); congruence. }
    pose proof (label_goes_by snap cfg LC LR UL lab CI BL n w G _ _ El) as ->.
    unfold bind_concept_to_syntax in Et. apply obind_ok in Et. destruct Et as (ty & _ & Et).
    destruct (opt_cct_eqb ty _).
    - unfold bind_quantifier in Et. apply obind_ok in Et. destruct Et as (u & _ & [= <-]). exists LQuantifier.
      split; [reflexivity|discriminate].
    - injection Et as <-. cbn. eexists. split; [reflexivity|]. intros ->. discriminate.
  Qed.
  Lemma operator_leaf n t : built_in snap n CImplication \/ built_in snap n CReduction -> leaf_of n t ->
    exists s k, t = TLeaf s (Some (Committed n)) k /\ k <> LVariable.
  Proof.
    intros B Lf. assert (B' : exists cc, built_in snap n cc) by (destruct B; eauto). destruct B' as (cc & o' & L' & S').
    destruct Lf as (o & lb & L & El & Et). rewrite L in L'. injection L' as <-. unfold label_for in El.
    assert (get_string o = None) by (unfold get_string; rewrite S'; reflexivity). rewrite H in El. destruct lb as [w|].
    - apply (label_names cfg snap LC LR UL lab CI BL) in El. pose proof (ON _ _ B El) as V.
      unfold bind_concept_to_syntax in Et. apply obind_ok in Et. destruct Et as (ty & _ & Et).
      destruct (opt_cct_eqb ty _).
      + unfold bind_quantifier in Et. apply obind_ok in Et. destruct Et as (u & _ & [= <-]). eexists _, LQuantifier.
        split; [reflexivity|discriminate].
      + injection Et as <-. cbn. rewrite V. eexists _, LConstant. split; [reflexivity|discriminate].
    - destruct Et as [_ ->]. pose proof (N _ _ L) as Id. unfold new_syntax_from_leaf_concept. cbn [m_id mixed_of_committed m_anonymous].
      rewrite Id. unfold anonymous_variable. rewrite S'. destruct (opt_cct_eqb _ _).
      + eexists _, LQuantifier. split; [reflexivity|discriminate].
      + eexists _, LConstant. split; [reflexivity|discriminate].
  Qed.
  Lemma closed_leaf e n s k : simple e -> (exists cc, built_in snap n cc) \/ leaf_variable snap n Constant ->
    ~ open_in cfg snap e (TLeaf s (Some (Committed n)) k).
  Proof.
    intros (W & B & _) H O. apply open_leaf in O. destruct O as [O|(c & m & [= <-] & R & Bm)]; [rewrite B in O; destruct O|].
    unfold known in R. apply (wide_back cfg snap _ W) in R. destruct R as (o & L & ->). cbn in Bm. unfold bounded_variable in Bm.
    destruct H as [(cc & c & L' & S)|(c & red & L' & S)]; rewrite L in L'; injection L' as <-; rewrite S in Bm; discriminate.
  Qed.
  Lemma open_variable e u : delta_concept (e_delta e) (Uncommitted u) = Some own_variable ->
    open_in cfg snap e (new_leaf_variable (Uncommitted u)).
  Proof.
    intros D. exists (new_leaf_variable (Uncommitted u)). split; [apply PartSelf|]. right.
    exists (Uncommitted u), (MUnc (make_bound_variable (Uncommitted u))). split; [reflexivity|]. split; [|reflexivity].
    unfold known, read_concept, maybe_read_concept. rewrite D. cbn. unfold dassert. destruct (dbg cfg); reflexivity.
  Qed.

  Section Nothing.
    Variables (J : sstate -> Prop) (I : sstate -> sstate -> Prop) (P P1 : env -> Prop) (Hd : nat -> Prop).
    Hypothesis L : cache_laws cfg snap rf J I P P1 Hd.
    Hypothesis JJ : forall s, J s -> shaped s.
    Hypothesis PP : forall e, P e -> simple e.
    Lemma infers_nothing_for n e o t s r s' :
      simple e ->
      (forall h d s e' s', Hd h -> widens (e_delta e) d -> J s -> spawn e h d s = Ok (e', s') -> P1 e' /\ J s' /\ I s s') ->
      (forall c s t s', built_in snap c CReduction -> J s -> o_to_ast (ops n) e (Committed c) s = Ok (t, s') -> J s' /\ I s s') ->
      (forall k, (forall k', o = Some k' -> k = k') -> unruled snap k) -> (forall e', simple e' -> slot cfg snap e' o t) -> J s ->
      find_examples_of_inferred_reduction cfg snap rf (ops n) e t s = Ok (r, s') -> r = None /\ J s' /\ I s s'.
    Proof.
      intros Se Sp As Un Sl H E. pose proof (search_kp_up_to _ _ _ _ _ _ _ _ L n) as OB.
      pose proof (l_refl _ _ _ _ _ _ _ _ L) as Rf. pose proof (l_trans _ _ _ _ _ _ _ _ L) as Tr.
      pose proof (proj1 Se) as W0.
      assert (Id : forall d cc c, widens delta_default d -> concrete_concept_id cfg snap d cc = Ok (Some c) ->
        exists i, c = Committed i /\ built_in snap i cc).
      { intros d cc c W C. apply BI. exact (wide_concrete_id cfg snap F d W _ _ C). }
      unfold find_examples_of_inferred_reduction, and_then in E. apply sb in E. destruct E as (imp & s1 & E1 & E).
      apply lifted in E1. destruct E1 as [Ci ->]. destruct imp as [imp|]; [|injection E as <- <-; auto].
      destruct (Id _ _ _ W0 Ci) as (i & -> & Bi).
      apply sb in E. destruct E as (op & s1 & E1 & E). unfold concrete_ast, and_then in E1. apply sb in E1.
      destruct E1 as (red & s2 & E2 & E1). apply lifted in E2. destruct E2 as [Cr ->].
      destruct red as [red|]; [|injection E1 as <- <-; injection E as <- <-; auto].
      destruct (Id _ _ _ W0 Cr) as (j & -> & Br).
      unfold smap in E1. apply sb in E1. destruct E1 as (opt & s2 & E1 & E2). injection E2 as <- <-.
      destruct (As _ _ _ _ Br H E1) as [H2 I2].
      assert (Lo : leaf_of j opt).
      { apply (built_in_leaf _ _ _ Br). exact (tree_shape _ _ _ N LR F _ _ _ _ _ _ Se (JJ _ H) E1). }
      apply sb in E. destruct E as ([v_red d1] & s3 & D1 & E). apply lifted in D1. destruct D1 as [D1 ->].
      apply sb in E. destruct E as ([v_cond d2] & s3 & D2 & E). apply lifted in D2. destruct D2 as [D2 ->].
      apply sb in E. destruct E as ([v3 d3] & s3 & D3 & E). apply lifted in D3. destruct D3 as [D3 ->].
      assert (W1 : widens delta_default d1) by eauto using widens.
      assert (W2 : widens delta_default d2) by eauto using widens.
      assert (W3 : widens delta_default d3) by eauto using widens.
      assert (We : widens (e_delta e) d3) by eauto 6 using widens.
      destruct (widened_new _ _ _ (WidensLayer _ _ W0) D1) as (R1 & _ & R3 & ur & ->).
      destruct (widened_new _ _ _ W1 D2) as (C1 & C2 & C3 & uc & ->).
      destruct (widened_new _ _ _ W2 D3) as (V1 & V2 & _).
      apply sb in E. destruct E as (h & s3 & E3 & E).
      destruct (l_new _ _ _ _ _ _ _ _ L _ _ _ H2 E3) as (Hh & H3 & I3).
      apply sb in E. destruct E as (e0 & s4 & E4 & E).
      destruct (Sp _ _ _ _ _ Hh We H3 E4) as (P0 & H4 & I4).
      assert (D0 : e_delta e0 = d3).
      { unfold spawn in E4. apply sb in E4. destruct E4 as (sy & s5 & _ & [= <- _]). reflexivity. }
      cbv zeta in E. set (e' := with_inferring e0 (t_concept t)) in *.
      assert (P' : P e') by (apply (l_p1 _ _ _ _ _ _ _ _ L), (l_infer _ _ _ _ _ _ _ _ L), P0).
      assert (D' : e_delta e' = d3) by (unfold e'; destruct (t_concept t); exact D0).
      clearbody e'. clear e0 D0 P0 E3 E4. pose proof (PP _ P') as Se'.
      apply sb in E. destruct E as (it & s5 & E5 & E).
      destruct (kp_to_ast _ _ _ _ (OB n (le_n n)) e' _ P' _ _ _ H4 E5) as [H5 I5].
      assert (Li : leaf_of i it).
      { apply (built_in_leaf _ _ _ Bi). exact (tree_shape _ _ _ N LR F _ _ _ _ _ _ Se' (JJ _ H4) E5). }
      apply sb in E. destruct E as (tr & s6 & E6 & E). apply lifted in E6. destruct E6 as [Ct ->].
      apply sb in E. destruct E as (tr' & s6 & E6 & E). apply lifted in E6. destruct E6 as [U ->].
      destruct tr as [tr|]; [|discriminate]. injection U as <-.
      apply sb in E. destruct E as (truths & s6 & E6 & E).
      destruct (equivalence_set_kp _ _ _ _ _ _ _ _ L e tr _ _ _ H5 E6) as [H6 I6].
      destruct (Id _ _ _ (proj1 Se') Ct) as (tn & -> & Bt).
      destruct (operator_leaf i it (or_introl Bi) Li) as (si & ki & -> & Ki).
      destruct (operator_leaf j opt (or_intror Br) Lo) as (sj & kj & -> & Kj).
      apply (unmatched _ _ _ _ _ _ _ _ L) with (l := new_leaf_variable (Uncommitted uc))
        (t := new_pair (TLeaf si (Some (Committed i)) ki) (new_pair t
               (new_pair (TLeaf sj (Some (Committed j)) kj) (new_leaf_variable (Uncommitted ur))))) in E;
        [|exact P'|exact H6|apply new_pair_exp|apply open_variable; rewrite D'; apply V2, C1| |].
      - destruct E as (-> & H7 & I7). split; [reflexivity|]. split; [exact H7|].
        exact (Tr _ _ _ I2 (Tr _ _ _ I3 (Tr _ _ _ I4 (Tr _ _ _ I5 (Tr _ _ _ I6 I7))))).
      - repeat (eapply exp_open; [apply new_pair_exp|]). apply open_variable. rewrite D'. apply V2, C2, R1.
      - intros z x Iz M. apply (equivalents _ _ _ _ _ _ _ E6) in Iz.
        destruct (standing_back _ _ F e tn z Se Iz) as (zn & -> & Sz).
        revert M. apply (no_example cfg snap rf J F N LC LR UL lab CI BL JJ) with (o1 := Some i) (o2 := o) (o3 := Some j);
          try assumption; try reflexivity.
        + exists uc, ur. split; [reflexivity|]. split; [reflexivity|]. apply new_key. intros [= ->]. congruence.
        + apply open_variable. rewrite D'. apply V2, C1.
        + apply open_variable. rewrite D'. apply V2, C2, R1.
        + exists si, ki. split; [reflexivity|]. split; [exact Ki|]. apply closed_leaf; [exact Se'|left; eauto].
        + exact (Sl _ Se').
        + exists sj, kj. split; [reflexivity|]. split; [exact Kj|]. apply closed_leaf; [exact Se'|left; eauto].
        + intros cond y y' hs Cz Sy Fi. destruct (fills_three _ _ _ _ Fi) as (h2 & -> & Q2).
          refine (Un h2 _ tn i j zn cond y y' Bt Bi Br Sz Cz Sy). intros k' ->. exact Q2.
    Qed.
    Lemma symbol_slot e k w t : simple e -> settled_symbol k w -> leaf_of k t -> slot cfg snap e (Some k) t.
    Proof.
      intros Se (Ck & Gk & Vk & Uk) Lf. destruct (named_leaf k w t Lf Gk) as (kk & -> & Kk).
      { intros v (c & L1 & S1). destruct Ck as [(cc & c' & L2 & S2)|(c' & rd & L2 & S2)]; congruence. }
      exists w, kk. split; [reflexivity|]. split; [exact (Kk Vk)|]. apply closed_leaf; [exact Se|exact Ck].
    Qed.
    Lemma infers_nothing n e k w t s r s' :
      simple e ->
      (forall h d s e' s', Hd h -> widens (e_delta e) d -> J s -> spawn e h d s = Ok (e', s') -> P1 e' /\ J s' /\ I s s') ->
      (forall c s t s', built_in snap c CReduction -> J s -> o_to_ast (ops n) e (Committed c) s = Ok (t, s') -> J s' /\ I s s') ->
      settled_symbol k w -> leaf_of k t -> J s ->
      find_examples_of_inferred_reduction cfg snap rf (ops n) e t s = Ok (r, s') -> r = None /\ J s' /\ I s s'.
    Proof.
      intros Se Sp As Pk Lf H E. apply (infers_nothing_for n e (Some k) t) in E; try assumption.
      - intros k' Q. rewrite (Q _ eq_refl). apply Pk.
      - intros e' Se'. exact (symbol_slot _ _ _ _ Se' Pk Lf).
    Qed.
  End Nothing.

  (** ** States of a search that go well with the declared reductions *)
  Definition quiet (s : sstate) : Prop :=
    shaped s /\ (forall k w r, In (Committed k, r) (s_inf s) -> plain_symbol k w -> r = None) /\ s_red s <> [].
  (** The context's cache of reductions stays as it is. *)
  Definition untouched (s s' : sstate) : Prop := nth 0 (s_red s') [] = nth 0 (s_red s) [].
  Definition apart (e : env) : Prop := simple e /\ hd 0 (e_reds e) <> 0.
  Lemma shape_nothing n e k w t s r s' : simple e -> settled_symbol k w -> leaf_of k t -> shaped s ->
    find_examples_of_inferred_reduction cfg snap rf (ops n) e t s = Ok (r, s') -> r = None.
  Proof.
    intros Se Pk Lf H E. pose proof (shape_laws cfg snap rf N LR F) as L.
    eapply (infers_nothing _ _ _ _ _ L) in E; [exact (proj1 E)|auto|auto|exact Se| | |exact Pk|exact Lf|exact H].
    - intros h d q e' q' Hh Wd Hq Eq. exact (l_spawn _ _ _ _ _ _ _ _ L _ _ _ _ _ _ Se Hh Wd Hq Eq).
    - intros c q u q' _ Hq Eq. pose proof (search_kp _ _ _ _ _ _ _ _ L n) as OB.
      exact (kp_to_ast _ _ _ _ OB e _ Se _ _ _ Hq Eq).
  Qed.
  Lemma quiet_laws : cache_laws cfg snap rf quiet untouched apart apart (fun h => h <> 0).
  Proof.
    constructor.
    - intros s _. reflexivity.
    - intros s1 s2 s3 A B. unfold untouched in *. congruence.
    - intros s n H. split; [exact H|reflexivity].
    - intros s h s' (H1 & H2 & H3) [= <- <-]. split; [destruct (s_red s); [congruence|discriminate]|]. split.
      + split; [exact H1|]. split; [exact H2|]. cbn. destruct (s_red s); [congruence|discriminate].
      + unfold untouched. cbn. destruct (s_red s); [congruence|reflexivity].
    - intros e h d s e' s' (Se & _) Hh Wd (H1 & H2 & H3) E. pose proof (simple_spawn _ _ _ _ _ _ _ Se Wd E) as Se'.
      unfold spawn in E. apply sb in E. destruct E as (sy & s1 & [= <- <-] & [= <- <-]).
      split; [split; [exact Se'|exact Hh]|]. split; [|reflexivity].
      split; [apply shaped_more, H1|]. split; [exact H2|exact H3].
    - intros e H. exact H.
    - intros e e0 vm ml t g s s1 (Se & _) (S0 & Hd) _ E Pu.
      split; [exact (simple_mask _ _ _ _ _ _ _ _ _ _ Se S0 E Pu)|exact Hd].
    - intros e k H. exact H.
    - intros e c H. destruct c; exact H.
    - intros n e t s r s1 s2 (Se & Hd) _ _ (H1 & H2 & H3) I E _. unfold insert_reduction in E. injection E as <-.
      match goal with |- context [if ?b then _ else _] => destruct b end; [|split; [split; [exact H1|split; assumption]|exact I]].
      split.
      + split; [exact H1|]. split; [exact H2|]. cbn [s_red]. intros X. apply H3. apply length_zero_iff_nil.
        rewrite <- (length_upd_nth (hd 0 (e_reds e)) (aset key_eqb (t_key t) r)), X. reflexivity.
      + unfold untouched in *. cbn [s_red]. rewrite nth_upd_other by exact Hd. exact I.
    - intros n e c m t s s1 s2 (Se & Hd) (H1 & _) _ _ R (K1 & K2 & K3) I E _ T.
      assert (Sh : shaped s2).
      { refine (shaped_insert _ _ _ N e c m t s1 s2 K1 R _ E). intros k ->.
        exact (tree_shape _ _ _ N LR F _ _ _ _ _ _ Se H1 T). }
      unfold insert_syntax in E. injection E as <-. destruct (m_anonymous m); split; try exact I;
        (split; [exact Sh|split; assumption]).
    - intros n e c t r s s1 s2 (Se & Hd) _ (H1 & _) (K1 & _) _ (G1 & G2 & G3) _ E1 E2.
      split; [|reflexivity]. split; [exact G1|]. split; [|exact G3]. intros k w q X Pk. cbn [s_inf] in X.
      apply (in_aset _ cid_eqb_spec) in X. destruct X as [[<- ->]|X]; [|exact (G2 _ _ _ X Pk)].
      apply (shape_nothing n e k w t s1 r s2 Se (proj1 Pk)); [|exact K1|exact E2]. apply (plain_leaf _ _ _ Pk).
      exact (tree_shape _ _ _ N LR F _ _ _ _ _ _ Se H1 E1).
  Qed.

  (** ** Evaluation in the context's own environment *)
  Notation own := (new_env delta_default []).
  Lemma own_simple : simple own.
  Proof. split; [constructor|]. split; [reflexivity|]. intros c t X. discriminate X. Qed.
  (** What may be found for a symbol: its declared reduction. *)
  Definition right_for (k : nat) (r : rresult) : Prop :=
    match r with
    | None => forall q, ~ reduces snap k q
    | Some (u, _) => exists q, reduces snap k q /\ leaf_of q u
    end.
  Definition sound (s : sstate) : Prop := forall k z v x r, ends snap k z v ->
    In ((x, Some (Committed k)), r) (nth 0 (s_red s) []) -> right_for k r.
  (** What is remembered about expressions that are not concepts meets any condition that is put on it. *)
  Variable extra : text -> rresult -> Prop.
  Definition fine (s : sstate) : Prop := forall x r, In ((Some x, None), r) (nth 0 (s_red s) []) -> extra x r.
  Definition good (s : sstate) : Prop := quiet s /\ sound s /\ fine s.

  Lemma elementary_leaf k t : elementary k -> shape k t -> leaf_of k t.
  Proof.
    intros [(cc & B)|(c & red & L & S)] H; [exact (built_in_leaf _ _ _ B H)|]. apply shape_leaf; [exact H| |].
    - intros (c' & red' & L' & S'). congruence.
    - intros a b (c' & fv & bv & red' & L' & S'). congruence.
  Qed.
  Lemma ends_elementary k z v : ends snap k z v -> elementary k.
  Proof. destruct 1 as [z w (_ & C & _)|z cc w B|k w q z v (_ & C & _)]; [right; exact C|left; eauto|right; exact C]. Qed.
  Lemma own_tree n k s t s' : elementary k -> quiet s -> o_to_ast (ops n) own (Committed k) s = Ok (t, s') ->
    leaf_of k t /\ quiet s' /\ untouched s s'.
  Proof.
    intros El H E. assert (Sh : shape k t) by exact (tree_shape _ _ _ N LR F _ _ _ _ _ _ own_simple (proj1 H) E).
    split; [exact (elementary_leaf _ _ El Sh)|].
    destruct n as [|n]; [discriminate|]. cbn [search step o_to_ast] in E. unfold to_ast in E.
    cbn [new_env e_mask ml_get aget] in E. apply sb in E. destruct E as (cached & s1 & C & E). injection C as _ <-.
    destruct cached as [u|]; [injection E as _ <-; split; [exact H|reflexivity]|].
    apply sb in E. destruct E as (m & s1 & R & E). apply read_ok in R. destruct R as [R ->].
    apply sb in E. destruct E as (lb & s1 & Elb & E).
    assert (s1 = s).
    { destruct (m_string m); [now injection Elb|]. apply lifted in Elb. apply Elb. }
    subst s1. apply sb in E. destruct E as (u & s2 & Eu & E).
    assert (s2 = s).
    { destruct lb as [w|]; [apply lifted in Eu; apply Eu|].
      assert (C : m_composition m = None).
      { unfold known in R. apply (wide_back cfg snap _ (WidensSame _)) in R. destruct R as (o & L & ->).
        cbn [m_composition mixed_of_committed]. unfold get_composition.
        destruct El as [(cc & c & L' & S)|(c & red & L' & S)]; rewrite L in L'; injection L' as <-; rewrite S; reflexivity. }
      rewrite C in Eu. now injection Eu. }
    subst s2. apply sb in E. destruct E as ([] & s3 & Ei & E). injection E as -> <-.
    assert (Sh3 : shaped s3).
    { refine (shaped_insert _ _ _ N own (Committed k) m t s s3 (proj1 H) R _ Ei). intros k' [= <-]. exact Sh. }
    unfold insert_syntax in Ei. injection Ei as <-. destruct H as (H1 & H2 & H3).
    destruct (m_anonymous m); (split; [split; [exact Sh3|split; assumption]|reflexivity]).
  Qed.
  Lemma own_spawn h d s e' s' : h <> 0 -> widens (e_delta own) d -> quiet s -> spawn own h d s = Ok (e', s') ->
    apart e' /\ quiet s' /\ untouched s s'.
  Proof.
    intros Hh Wd (H1 & H2 & H3) E. pose proof (simple_spawn _ _ _ _ _ _ _ own_simple Wd E) as Se'.
    unfold spawn in E. apply sb in E. destruct E as (sy & s1 & [= <- <-] & [= <- <-]).
    split; [split; [exact Se'|exact Hh]|]. split; [|reflexivity]. split; [apply shaped_more, H1|]. split; [exact H2|exact H3].
  Qed.
  Lemma own_infer n k w m s r s' : plain_symbol k w -> quiet s -> known cfg snap own (Committed k) m ->
    infer_reduction cfg snap rf (ops n) own m s = Ok (r, s') -> r = None /\ quiet s' /\ untouched s s'.
  Proof.
    intros Pk H R E. pose proof (read_id _ _ _ _ _ N R) as Id. unfold known in R.
    apply (wide_back cfg snap _ (WidensSame _)) in R. destruct R as (o & L & ->).
    unfold infer_reduction, and_then in E. apply sb in E. destruct E as (imp & s1 & E1 & E).
    apply lifted in E1. destruct E1 as [Ci ->].
    destruct imp as [imp|]; [|injection E as <- <-; split; [reflexivity|split; [exact H|reflexivity]]].
    destruct (BI _ _ Ci) as (i & -> & Bi).
    assert (No : m_find_as_hand (mixed_of_committed o) (Committed i) HRight = None).
    { cbn [m_find_as_hand mixed_of_committed ch_right aget]. unfold find_as_hand, hand_of.
      destruct (aget Nat.eqb i (righthand_of o)) as [p|] eqn:A; [|reflexivity]. exfalso.
      destruct Pk as (_ & _ & Nc). apply (Nc i p Bi). apply LR. right. exists o. auto. }
    rewrite No in E. cbn [opt_then] in E. unfold or_else in E. apply sb in E. destruct E as (x & s1 & [= <- <-] & E).
    rewrite Id in E. apply sb in E. destruct E as (cached & s1 & [= C <-] & E). destruct cached as [rr|].
    { injection E as <- <-. apply (aget_in _ cid_eqb_spec) in C. split; [|split; [exact H|reflexivity]].
      exact (proj1 (proj2 H) _ _ _ C Pk). }
    apply sb in E. destruct E as (t & s1 & Et & E).
    destruct (own_tree _ _ _ _ _ (or_intror (proj1 (proj2 Pk))) H Et) as (Lf & H1 & U1).
    apply sb in E. destruct E as (rr & s2 & Er & E).
    destruct (infers_nothing _ _ _ _ _ quiet_laws) with (n := n) (e := own) (k := k) (w := w) (t := t) (s := s1) (r := rr) (s' := s2)
      as (-> & H2 & U2); try assumption; try exact (proj1 Pk).
    - intros q Q. exact (proj1 Q).
    - intros e Q. exact (proj1 Q).
    - exact own_simple.
    - intros h d q e' q' Hh Wd Hq Eq. exact (own_spawn _ _ _ _ _ Hh Wd Hq Eq).
    - intros c q u q' Bc Hq Eq. exact (proj2 (own_tree _ _ _ _ _ (or_introl (ex_intro _ _ Bc)) Hq Eq)).
    - apply sb in E. destruct E as ([] & s3 & [= <-] & [= <- <-]). split; [reflexivity|].
      destruct H2 as (A1 & A2 & A3). split; [|unfold untouched in *; cbn [s_red]; congruence].
      split; [exact A1|]. split; [|exact A3]. intros k' w' r' X Pk'. cbn [s_inf] in X.
      apply (in_aset _ cid_eqb_spec) in X. destruct X as [[_ ->]|X]; [reflexivity|exact (A2 _ _ _ X Pk')].
  Qed.
  Lemma own_reduce_leaf n k z v x kk s r s' : ends snap k z v -> good s ->
    o_reduce (ops n) own (TLeaf x (Some (Committed k)) kk) s = Ok (r, s') -> good s' /\ right_for k r.
  Proof.
    intros En (H & So & Fi) E.
    destruct n as [|n]; [discriminate|]. cbn [search step o_reduce] in E. unfold reduce in E.
    apply sb in E. destruct E as (cached & s1 & C & E). injection C as C <-. destruct cached as [rr|].
    { injection E as <- <-. split; [split; [assumption|split; assumption]|]. cbn [new_env e_reds lookup_red] in C.
      destruct (aget _ _ _) as [y|] eqn:A; [|discriminate]. injection C as ->. apply (aget_in _ key_eqb_spec) in A.
      exact (So _ _ _ _ _ En A). }
    clear C. apply sb in E. destruct E as (cc & s1 & Ec & E). cbn [t_concept] in Ec. apply lifted in Ec. destruct Ec as [Ty ->].
    assert (Bc : forall c, built_in snap k c -> cc <> None).
    { intros c (o & L & S) ->. unfold concrete_concept_type, omap in Ty. apply obind_ok in Ty. destruct Ty as (m & R & [= Q]).
      apply (wide_back cfg snap _ (WidensSame _)) in R. destruct R as (o' & L' & ->). rewrite L in L'. injection L' as <-.
      cbn in Q. unfold get_concrete in Q. rewrite S in Q. discriminate. }
    destruct cc as [cc|].
    { injection E as <- <-. split; [split; [assumption|split; assumption]|]. intros q (c & comp & L & S).
      apply (wide_type cfg snap _ (WidensSame _)) in Ty. destruct Ty as (k' & [= <-] & (c' & L' & S')). congruence. }
    assert (Pl : exists w, plain_symbol k w).
    { destruct En as [z w Pz _|z c w B _|k w q z v Pz _ _]; [eauto| |eauto]. exfalso. exact (Bc _ B eq_refl). }
    destruct Pl as [w Pk].
    apply sb in E. destruct E as (rr & s1 & Er & E). cbn [t_exp opt_then] in Er.
    apply sb in E. destruct E as ([] & s2 & Ei & E). injection E as <- <-.
    assert (G : quiet s1 /\ untouched s s1 /\ right_for k rr).
    { unfold or_else at 1 in Er. apply sb in Er. destruct Er as (o1 & s3 & Er & Eo).
      assert (o1 = rr /\ s3 = s1) by (destruct o1; [injection Eo as <- <-|injection Eo as <- <-]; auto). destruct H0 as [-> ->]. clear Eo.
      cbn [t_concept opt_then] in Er. unfold reduce_concept in Er. apply sb in Er. destruct Er as (m & s3 & R & Er).
      apply read_ok in R. destruct R as [R ->]. cbn [new_env e_infer smem existsb] in Er.
      unfold or_else in Er. apply sb in Er. destruct Er as (o2 & s3 & E2 & Er).
      destruct (own_infer _ _ _ _ _ _ _ Pk H R E2) as (-> & H3 & U3). unfold known in R.
      apply (wide_back cfg snap _ (WidensSame _)) in R. destruct R as (o & L & ->).
      cbn [m_reduction mixed_of_committed] in Er. destruct (get_reduction o) as [q|] eqn:G; cbn [option_map opt_then] in Er.
      - assert (Re : reduces snap k q).
        { unfold get_reduction in G. destruct (c_spec o) as [|comp [y|]|] eqn:S; try discriminate. injection G as ->.
          exists o, comp. auto. }
        assert (Eq : exists z' v', ends snap q z' v').
        { destruct En as [z w' _ Nr|z c w' B _|k w' q' z v _ Re' En'].
          - exfalso. exact (Nr _ Re).
          - exfalso. exact (Bc _ B eq_refl).
          - assert (q' = q). { destruct Re as (c1 & m1 & L1 & S1), Re' as (c2 & m2 & L2 & S2). congruence. }
            subst q'. eauto. }
        destruct Eq as (z' & v' & Eq). pose proof (ends_elementary _ _ _ Eq) as Elq.
        apply sb in Er. destruct Er as (b & s4 & Eb & Er).
        assert (b = false /\ s4 = s3).
        { unfold is_leaf_variable_concept in Eb. apply sb in Eb. destruct Eb as (f & s5 & Ef & Eb).
          unfold is_free_variable in Ef. apply sb in Ef. destruct Ef as (m & s6 & Rm & [= <- <-]).
          apply read_ok in Rm. destruct Rm as [Rm ->]. unfold known in Rm.
          apply (wide_back cfg snap _ (WidensSame _)) in Rm. destruct Rm as (oq & Lq & ->).
          assert (m_free (mixed_of_committed oq) = false).
          { cbn. unfold free_variable.
            destruct Elq as [(c & c1 & L1 & S1)|(c1 & rd & L1 & S1)]; rewrite Lq in L1; injection L1 as <-; rewrite S1; reflexivity. }
          rewrite H0 in Eb. cbn [andb] in Eb. now injection Eb as <- <-. }
        destruct H0 as [-> ->]. unfold and_then, smap in Er. apply sb in Er. destruct Er as (o3 & s5 & Et & Er).
        apply sb in Et. destruct Et as (u & s6 & Et & [= <- <-]). injection Er as <- <-.
        destruct (own_tree _ _ _ _ _ Elq H3 Et) as (Lq & H6 & U6). split; [exact H6|].
        split; [unfold untouched in *; congruence|]. exists q. auto.
      - injection Er as <- <-. split; [exact H3|]. split; [exact U3|]. intros q (c & comp & L' & S').
        rewrite L in L'. injection L' as <-. unfold get_reduction in G. rewrite S' in G. discriminate. }
    destruct G as (H1 & U1 & Rr). split; [|exact Rr]. unfold insert_reduction in Ei. injection Ei as <-.
    assert (So1 : sound s1).
    { intros k' z' v' x' r' En' X. unfold untouched in U1. rewrite U1 in X. exact (So _ _ _ _ _ En' X). }
    assert (Fi1 : fine s1).
    { intros x' r' X. unfold untouched in U1. rewrite U1 in X. exact (Fi _ _ X). }
    match goal with |- context [if ?b then _ else _] => destruct b end; [|split; [|split]; assumption].
    split; [|split].
    - destruct H1 as (A1 & A2 & A3). split; [exact A1|]. split; [exact A2|]. cbn [s_red]. intros X. apply A3.
      destruct (s_red s1); [reflexivity|discriminate X].
    - intros k' z' v' x' r' En' X. cbn [s_red] in X.
      apply (in_upd 0 (aset key_eqb (t_key (TLeaf x (Some (Committed k)) kk)) rr)) in X. destruct X as [X|[_ X]].
      + exact (So1 _ _ _ _ _ En' X).
      + apply (in_aset _ key_eqb_spec) in X. destruct X as [[Q ->]|X]; [|exact (So1 _ _ _ _ _ En' X)].
        assert (k' = k) as -> by (unfold t_key in Q; cbn in Q; congruence). exact Rr.
    - intros x' r' X. cbn [s_red] in X.
      apply (in_upd 0 (aset key_eqb (t_key (TLeaf x (Some (Committed k)) kk)) rr)) in X. destruct X as [X|[_ X]].
      + exact (Fi1 _ _ X).
      + apply (in_aset _ key_eqb_spec) in X. destruct X as [[Q _]|X]; [discriminate Q|exact (Fi1 _ _ X)].
  Qed.
  Lemma own_reduce n k z v t s r s' : ends snap k z v -> leaf_of k t -> good s ->
    o_reduce (ops n) own t s = Ok (r, s') -> good s' /\ right_for k r.
  Proof. intros En Lf. destruct (leaf_is _ _ _ N _ _ Lf) as (x & kk & ->). exact (own_reduce_leaf n k z v x kk s r s' En). Qed.
  (** The chain is followed to its end. *)
  Lemma own_normal_form n : forall k z v t why s r why' s', ends snap k z v -> leaf_of k t -> good s ->
    o_nf (ops n) own t why s = Ok ((r, why'), s') -> good s' /\ leaf_of z r.
  Proof.
    induction n as [|n IH]; intros k z v t why s r why' s' En Lf H E; [discriminate|].
    cbn [search step o_nf] in E. unfold normal_form in E. apply sb in E. destruct E as (rr & s1 & Er & E).
    destruct (own_reduce _ _ _ _ _ _ _ _ En Lf H Er) as [H1 Rr]. destruct rr as [[t' reason]|].
    - destruct Rr as (q & Re & Lq).
      destruct En as [z w' _ Nr|z c w' (o & L & S) _|k w' q' z v _ Re' En'].
      + exfalso. exact (Nr _ Re).
      + exfalso. destruct Re as (c1 & m1 & L1 & S1). congruence.
      + assert (q' = q). { destruct Re as (c1 & m1 & L1 & S1), Re' as (c2 & m2 & L2 & S2). congruence. }
        subst q'. exact (IH _ _ _ _ _ _ _ _ _ En' Lq H1 E).
    - injection E as <- <- <-. split; [exact H1|].
      destruct En as [z w' _ _|z c w' _ _|k w' q' z v _ Re' _]; [exact Lf|exact Lf|]. exfalso. exact (Rr _ Re').
  Qed.
End Store.
