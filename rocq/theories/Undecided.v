(** Concepts that would follow from something that is not declared to be true: they are evaluated as if there were no
    implication (zia/src/context_search.rs:101-197). *)
From Verif Require Import Start Snapshot Search Context LexerSpec StoreSpec StoreInv NameSpec Names StoreFacts
  MapFacts AstSpec AstFacts RangeFacts History Steps SearchKeeps SearchCaches Questions Existence Wide Earned Repeat CacheLife
  Quiet Displays Matches Implications Asking Shapes Unruled Answers Clean Replies Keyed Flat Circular Concluded.
From Coq Require Import List PeanoNat Bool.
Import ListNotations.
Local Open Scope zia_scope.
Local Open Scope search_scope.

(** ** Specification *)
(** No reduction of [x] to the built-in concept true is declared. *)
Definition untrue (s : snapshot) (x : nat) : Prop := forall t, built_in s t CTrue -> ~ reduces s x t.
(** A symbol about which nothing follows: it is not implied by anything declared to be true, and nothing follows about what
    implies it either.  It may only be declared to reduce to another symbol. *)
Inductive passive (s : snapshot) : nat -> Prop :=
| PassiveBuiltIn z cc w : built_in s z cc -> settled_symbol s z w -> passive s z
| PassiveSymbol k w : settled_symbol s k w -> leaf_variable s k Constant ->
    (forall x, implied_by s k x -> untrue s x /\ passive s x) -> (forall q, reduces s k q -> elementary s q) -> passive s k.
(** [settles s k z v]: the declared reductions from [k] lead to [z], which is called [v], by way of such symbols. *)
Inductive settles (s : snapshot) : nat -> nat -> text -> Prop :=
| SettlesHere z w : passive s z -> settled_symbol s z w -> (forall q, ~ reduces s z q) -> settles s z z w
| SettlesLater k q z v : passive s k -> reduces s k q -> settles s q z v -> settles s k z v.
(** A symbol that follows from symbols declared to be true: it is implied by one that is, or that follows.  The others that
    imply it may be any symbols of either kind. *)
Inductive holds (s : snapshot) : nat -> Prop :=
| Holds k x : leaf_variable s k Constant -> implied_by s k x ->
    (exists t, built_in s t CTrue /\ reduces s x t) \/ holds s x ->
    (forall y, implied_by s k y -> passive s y \/ holds s y) -> holds s k.
(** A symbol whose declared reductions lead to such a symbol. *)
Inductive comes_true (s : snapshot) : nat -> Prop :=
| ComesFollowing k : holds s k -> comes_true s k
| ComesLater k q : passive s k -> reduces s k q -> comes_true s q -> comes_true s k.
(** A set of symbols each of which is implied by one of them, and otherwise only by symbols from which nothing follows. *)
Definition trap (s : snapshot) (S : nat -> Prop) : Prop := forall k, S k ->
  leaf_variable s k Constant /\ (exists x, implied_by s k x /\ S x) /\
  (forall x, implied_by s k x -> S x \/ (untrue s x /\ passive s x)).
(** A symbol whose declared reductions lead to one of them. *)
Inductive trapped (s : snapshot) (S : nat -> Prop) : nat -> Prop :=
| TrappedHere k : S k -> trapped s S k
| TrappedLater k q : passive s k -> reduces s k q -> trapped s S q -> trapped s S k.

Section Store.
  Variables (cfg : config) (snap : snapshot) (fuel : nat).
  Hypothesis F : fair cfg.
  Hypothesis N : self_numbered snap.
  Hypothesis LC : compositions_are_listed snap.
  Hypothesis LR : listed_compositions_are_real snap.
  Hypothesis UC : compositions_are_unique snap.
  Hypothesis UL : forall a b, built_in snap a CLabel -> built_in snap b CLabel -> a = b.
  Variable lab : nat.
  Hypothesis CI : concrete_concept_id cfg snap delta_default CLabel = Ok (Some (Committed lab)).
  Hypothesis BL : built_in snap lab CLabel.
  Hypothesis BI : forall cc c, concrete_concept_id cfg snap delta_default cc = Ok (Some c) -> is_built_in snap c cc.
  Hypothesis ON : operators_named snap.
  Variable imp : nat.
  Hypothesis CM : concrete_concept_id cfg snap delta_default CImplication = Ok (Some (Committed imp)).
  Hypothesis UM : forall a, built_in snap a CImplication -> a = imp.
  Hypothesis BM : built_in snap imp CImplication.
  Hypothesis HK : hands_keyed snap.
  Variable extra : text -> rresult -> Prop.
  Notation ops n := (search cfg snap fuel n).
  Notation leaf_of := (leaf_of cfg snap fuel).
  Notation own := (new_env delta_default []).
  Notation quiet := (quiet cfg snap fuel).
  Notation good := (good cfg snap fuel extra).
  Notation plain_symbol := (plain_symbol snap).


  Notation steady := (steady cfg snap fuel).
  Notation framed := (framed snap).

  Notation right_for := (right_for cfg snap fuel).
  Notation passive := (passive snap).
  Notation settles := (settles snap).
  Lemma passive_elementary k : passive k -> elementary snap k.
  Proof. intros [z' cc w B _|k' w _ C _ _]; [left; eauto|right; exact C]. Qed.
  Lemma passive_named k : passive k -> exists w, settled_symbol snap k w.
  Proof. intros [z' cc w _ St|k' w St _ _ _]; eauto. Qed.
  Lemma passive_conditions k : passive k -> leaf_variable snap k Constant ->
    forall x, implied_by snap k x -> untrue snap x /\ passive x.
  Proof. intros [z' cc w (o & L & Sp) _|k' w _ _ Al _] (o' & red & L' & Sp'); [congruence|exact Al]. Qed.
  Lemma passive_next k q : passive k -> reduces snap k q -> leaf_variable snap k Constant /\ elementary snap q.
  Proof.
    intros [z' cc w (o & L & Sp) _|k' w _ C _ El] Re; [|auto]. exfalso. destruct Re as (c1 & m1 & L1 & S1). congruence.
  Qed.
  Lemma one_reduction k q q' : reduces snap k q -> reduces snap k q' -> q' = q.
  Proof. intros (c1 & m1 & L1 & S1) (c2 & m2 & L2 & S2). congruence. Qed.
  Lemma settles_passive k z v : settles k z v -> passive k.
  Proof. destruct 1; assumption. Qed.
  Lemma settles_next k z v q : settles k z v -> reduces snap k q -> settles q z v.
  Proof. intros [z' w _ _ Nr|k' q' z' v' _ Re' Se] Re; [exfalso; exact (Nr _ Re)|]. rewrite (one_reduction _ _ _ Re' Re). exact Se. Qed.
  Lemma settles_last k z v : settles k z v -> (forall q, ~ reduces snap k q) -> z = k.
  Proof. intros [|? ? ? ? _ Re _] Nr; [reflexivity|exfalso; exact (Nr _ Re)]. Qed.
  Lemma settles_settled k z v : settles k z v -> settled_symbol snap z v.
  Proof. induction 1; assumption. Qed.
  Lemma settles_end k z v : settles k z v -> settles z z v.
  Proof. induction 1; [apply SettlesHere; assumption|assumption]. Qed.
  Lemma plain_conditions k w x : plain_symbol k w -> ~ implied_by snap k x.
  Proof. intros (_ & _ & P) (i & p & q & B & C & _). exact (P _ _ B C). Qed.
  Lemma ends_passive k z v : ends snap k z v -> passive k.
  Proof.
    assert (Pl : forall k w, plain_symbol k w -> (forall q, reduces snap k q -> elementary snap q) -> passive k).
    { intros k' w P El. apply (PassiveSymbol snap k' w); [apply P|apply P| |exact El]. intros x X. exfalso. exact (plain_conditions _ _ _ P X). }
    intros [z' w P Nr|z' cc w B St|k' w q z' v' P Re En].
    - apply (Pl _ _ P). intros q Re. exfalso. exact (Nr _ Re).
    - exact (PassiveBuiltIn _ _ _ _ B St).
    - apply (Pl _ _ P). intros q' Re'. rewrite (one_reduction _ _ _ Re Re'). exact (ends_elementary _ _ _ _ En).
  Qed.
  Lemma ends_settles k z v : ends snap k z v -> settles k z v.
  Proof.
    induction 1 as [z w P Nr|z cc w B St|k w q z v P Re En IH].
    - apply SettlesHere; [exact (ends_passive _ _ _ (EndsSymbol snap _ _ P Nr))|apply P|exact Nr].
    - apply SettlesHere; [exact (PassiveBuiltIn _ _ _ _ B St)|exact St|]. intros q (c & m & L & Sp). destruct B as (o & L' & Sp'). congruence.
    - exact (SettlesLater snap k q z v (ends_passive _ _ _ (EndsLater snap _ _ _ _ _ P Re En)) Re IH).
  Qed.
  Lemma passive_not_holds : forall k, holds snap k -> ~ passive k.
  Proof.
    fix IH 2. intros k Fo. destruct Fo as [k y C Iy Gy Al]. intros Se.
    destruct (passive_conditions _ Se C _ Iy) as (Un & Sy). destruct Gy as [(t & B & Re)|Fo].
    - exact (Un _ B Re).
    - exact (IH _ Fo Sy).
  Qed.
  Lemma follows_holds : forall k, follows snap k -> holds snap k.
  Proof.
    fix IH 2. intros k Fo. destruct Fo as [k y C Iy Gy Al]. apply (Holds snap k y C Iy).
    - destruct Gy as [(_ & T)|Fo]; [left; exact T|right; exact (IH _ Fo)].
    - intros x X. destruct (Al x X) as [(z & v & En)|Fo]; [left; exact (ends_passive _ _ _ En)|right; exact (IH _ Fo)].
  Qed.
  Lemma comes_constant k : comes_true snap k -> leaf_variable snap k Constant.
  Proof. intros [k' [k'' x C _ _ _]|k' q P Re _]; [exact C|exact (proj1 (passive_next _ _ P Re))]. Qed.
  Lemma holds_elementary k : holds snap k -> elementary snap k.
  Proof. intros [k' x C _ _ _]. right. exact C. Qed.
  Lemma trap_not_passive S : trap snap S -> forall k, S k -> ~ passive k.
  Proof.
    intros Tr. assert (G : forall k, passive k -> ~ S k).
    { fix IH 2. intros k P. destruct P as [z cc w (o & L & Sp) _|k w _ C Al _]; intros Sk.
      - destruct (Tr _ Sk) as ((o' & red & L' & Sp') & _). congruence.
      - destruct (Tr _ Sk) as (_ & (x & Ix & Sx) & _). destruct (Al _ Ix) as [_ Px]. exact (IH _ Px Sx). }
    intros k Sk P. exact (G _ P Sk).
  Qed.
  (** Only the declared reductions of passive symbols are remembered, and nothing about some that are not passive. *)
  Variable bad : nat -> Prop.
  Hypothesis BP : forall k, bad k -> ~ passive k.
  Definition tidy (s : sstate) : Prop := forall k x r, In ((x, Some (Committed k)), r) (nth 0 (s_red s) []) ->
    (passive k -> right_for k r) /\ ~ bad k.
  Definition calm (s : sstate) : Prop := quiet s /\ fine extra s /\ steady s /\ tidy s.
  Lemma calm_good s : calm s -> good s.
  Proof.
    intros (Q & Fi & _ & U). split; [exact Q|]. split; [|exact Fi].
    intros k z v x r En X. exact (proj1 (U _ _ _ X) (ends_passive _ _ _ En)).
  Qed.
  Lemma calm_untouched s s' : calm s -> quiet s' -> steady s' -> untouched s s' -> calm s'.
  Proof.
    intros (_ & Fi & _ & U) Q St V. unfold untouched in V. split; [exact Q|].
    split; [intros x r X; rewrite V in X; exact (Fi _ _ X)|]. split; [exact St|]. intros k x r X. rewrite V in X. exact (U _ _ _ X).
  Qed.
  Notation laws := (search_kp _ _ _ _ _ _ _ _ (steady_laws cfg snap fuel F N LC LR UL lab CI BL BI ON)).
  Lemma calm_tree n j s t s' : elementary snap j -> calm s -> o_to_ast (ops n) own (Committed j) s = Ok (t, s') -> leaf_of j t /\ calm s'.
  Proof.
    intros El H E. destruct (own_tree cfg snap fuel F N LR n j s t s' El (proj1 H) E) as (Lf & Q & V). split; [exact Lf|].
    exact (calm_untouched _ _ H Q (steady_tree cfg snap fuel F N LC LR UL lab CI BL BI ON _ _ _ _ _ (proj1 (proj2 (proj2 H))) E) V).
  Qed.
  Lemma calm_inferred n k w t s r s' : settled_symbol snap k w -> leaf_of k t -> calm s ->
    find_examples_of_inferred_reduction cfg snap fuel (ops n) own t s = Ok (r, s') -> calm s' /\ r = None.
  Proof.
    intros St Lf H E.
    destruct (infers_nothing cfg snap fuel F N LC LR UL lab CI BL BI ON _ _ _ _ _
      (quiet_laws cfg snap fuel F N LC LR UL lab CI BL BI ON)) with (n := n) (e := own) (k := k) (w := w) (t := t) (s := s) (r := r) (s' := s')
      as (-> & H2 & U2); try assumption.
    - intros q X. exact (proj1 X).
    - intros e X. exact (proj1 X).
    - apply own_simple.
    - intros h d q e' q' Hh Wd Hq Eq. exact (own_spawn cfg snap fuel _ _ _ _ _ Hh Wd Hq Eq).
    - intros c q u q' Bc Hq Eq. exact (proj2 (own_tree cfg snap fuel F N LR _ _ _ _ _ (or_introl (ex_intro _ _ Bc)) Hq Eq)).
    - exact (proj1 H).
    - split; [|reflexivity]. refine (calm_untouched _ _ H H2 _ U2).
      exact (proj1 (inferred_kp _ _ _ _ _ _ _ _ (steady_laws cfg snap fuel F N LC LR UL lab CI BL BI ON) n (fun m _ => laws m) own _ (own_simple snap) _ _ _ (proj1 (proj2 (proj2 H))) E)).
  Qed.
  (** What is found by [n] nested searches is right. *)
  Definition reduces_rightly (n : nat) : Prop := forall k x kk s r s', passive k -> calm s ->
    o_reduce (ops n) own (TLeaf x (Some (Committed k)) kk) s = Ok (r, s') -> calm s' /\ right_for k r.
  (** The implications lead to nothing. *)
  Lemma conditions_fail n l : reduces_rightly n ->
    (forall y w, In (y, w) l -> exists j, y = Committed j /\ untrue snap j /\ passive j) ->
    forall s r s', calm s ->
    find_map (fun '(cond_id, rule_id) =>
               cond <~ o_to_ast (ops n) own cond_id ;;
               and_then (o_reduce (ops n) own cond) (fun '(cond', reason) =>
               opt_then (t_concept cond') (fun x =>
               and_then (is_concrete_type cfg snap own CTrue x) (fun x =>
                 xt <~ o_to_ast (ops n) own x ;;
                 rt <~ o_to_ast (ops n) own rule_id ;;
                 sret (Some (xt, RInference rt reason)))))) l s = Ok (r, s') -> r = None /\ calm s'.
  Proof.
    intros IH. induction l as [|[y w] l IL]; intros Al s r s' Fr E2; [injection E2 as <- <-; auto|].
    destruct (Al y w (or_introl eq_refl)) as (j & -> & Nd & En). cbn [find_map] in E2.
    unfold or_else in E2. apply sb in E2. destruct E2 as (o4 & s7 & E2 & E3).
    assert (T : o4 = None /\ calm s7).
    2:{ destruct T as [-> F7]. exact (IL (fun y' w' J => Al y' w' (or_intror J)) _ _ _ F7 E3). }
    clear E3 IL. apply sb in E2. destruct E2 as (cond & s8 & Et & E2).
    destruct (calm_tree _ _ _ _ _ (passive_elementary _ En) Fr Et) as [Lj F8].
    destruct (leaf_is _ _ _ N _ _ Lj) as (xj & kj & ->).
    unfold and_then in E2. apply sb in E2. destruct E2 as (o5 & s9 & Er & E2).
    destruct (IH _ _ _ _ _ _ En F8 Er) as [F9 R9].
    destruct o5 as [[u why]|]; [|injection E2 as <- <-; auto].
    destruct R9 as (q' & Re & Lu). destruct (leaf_is _ _ _ N _ _ Lu) as (xu & ku & ->). cbn [t_concept opt_then] in E2.
    apply sb in E2. destruct E2 as (o6 & s10 & Ei & E2). unfold is_concrete_type in Ei.
    apply sb in Ei. destruct Ei as (ty & s11 & Ei & [= <- <-]). apply lifted in Ei. destruct Ei as [Ty ->].
    pose proof (type_of cfg snap _ _ Ty CTrue) as TT. destruct ty as [[]|]; cbn in E2; try (injection E2 as <- <-; auto).
    exfalso. exact (Nd q' (proj2 TT eq_refl) Re).
  Qed.
  Lemma calm_infer n k m s r s' : reduces_rightly n -> passive k -> leaf_variable snap k Constant -> calm s ->
    known cfg snap own (Committed k) m ->
    infer_reduction cfg snap fuel (ops n) own m s = Ok (r, s') -> r = None /\ calm s'.
  Proof.
    intros IH Se Co Fr R E2. pose proof (passive_conditions _ Se Co) as Al. destruct (passive_named _ Se) as [w St].
    destruct Co as (o & red & L & Sp).
    assert (Id : m_id m = Committed k) by exact (read_id _ _ _ _ _ N R).
    unfold known in R. apply (wide_back cfg snap _ (WidensSame _)) in R. destruct R as (o' & L' & ->). rewrite L in L'. injection L' as <-.
    unfold infer_reduction, and_then in E2. apply sb in E2. destruct E2 as (im & s5 & E1 & E2).
    apply lifted in E1. destruct E1 as [Ci ->]. cbn [new_env e_delta] in Ci. rewrite CM in Ci. injection Ci as <-.
    unfold or_else at 1 in E2. apply sb in E2. destruct E2 as (o3 & s5 & E2 & E3).
    assert (T : o3 = None /\ calm s5).
    { clear E3. cbn [m_find_as_hand mixed_of_committed ch_right aget] in E2. unfold find_as_hand, hand_of in E2.
      destruct (aget Nat.eqb imp (righthand_of o)) as [p|] eqn:A; [|injection E2 as <- <-; auto]. cbn [option_map opt_then] in E2.
      assert (Cp : composed snap p imp k) by (apply LR; right; exists o; auto).
      apply sb in E2. destruct E2 as (cm & s6 & R & E2). apply read_ok in R. destruct R as [R ->].
      unfold known in R. apply (wide_back cfg snap _ (WidensSame _)) in R. destruct R as (op & Lp & ->).
      apply (conditions_fail _ _ IH) in E2; [exact E2|clear E2|exact Fr].
      intros z' w' J. apply (committed_hands cfg F) in J. destruct J as (j & pj & -> & -> & J). exists j. split; [reflexivity|].
      apply Al. exists imp, p, pj. split; [exact BM|]. split; [exact Cp|]. apply LR. right. exists op. split; [exact Lp|].
      exact (keyed_in _ _ _ (HK _ _ HRight Lp) J). }
    clear E2 Fr. destruct T as [-> F5]. rewrite Id in E3.
    apply sb in E3. destruct E3 as (cached & s6 & [= C <-] & E). destruct cached as [rr|].
    { injection E as <- <-. apply (aget_in _ cid_eqb_spec) in C. split; [|exact F5]. exact (proj1 (proj2 (proj1 (proj2 (proj2 F5)))) _ _ _ C St). }
    apply sb in E. destruct E as (t & s1 & Et & E).
    destruct (calm_tree _ _ _ _ _ (passive_elementary _ Se) F5 Et) as (Lf & F1).
    apply sb in E. destruct E as (rr & s2 & Er & E).
    destruct (calm_inferred _ _ _ _ _ _ _ St Lf F1 Er) as [(Q2 & Fi2 & S2 & U2) ->].
    apply sb in E. destruct E as ([] & s3 & [= <-] & [= <- <-]). split; [reflexivity|].
    split; [|split; [exact Fi2|split; [|exact U2]]].
    - destruct Q2 as (A1 & A2 & A3). split; [exact A1|]. split; [|exact A3]. intros k' w' r' X Pk'. cbn [s_inf] in X.
      apply (in_aset _ cid_eqb_spec) in X. destruct X as [[_ ->]|X]; [reflexivity|exact (A2 _ _ _ X Pk')].
    - destruct S2 as (A1 & A2 & A3). split; [exact A1|]. split; [|exact A3]. intros k' w' r' X Pk'. cbn [s_inf] in X.
      apply (in_aset _ cid_eqb_spec) in X. destruct X as [[_ ->]|X]; [reflexivity|exact (A2 _ _ _ X Pk')].
  Qed.
  Lemma settled_reduce n : reduces_rightly n.
  Proof.
    induction n as [|n IH]; intros k x kk s r s' Se H E; [discriminate|].
    pose proof (steady_reduce cfg snap fuel F N LC LR UL lab CI BL BI ON _ _ _ _ _ (proj1 (proj2 (proj2 H))) E) as St'.
    cbn [search step o_reduce] in E. unfold reduce in E.
    apply sb in E. destruct E as (cached & s1 & C & E). injection C as C <-. destruct cached as [rr|].
    { injection E as <- <-. split; [exact H|]. cbn [new_env e_reds lookup_red] in C.
      destruct (aget _ _ _) as [y|] eqn:A; [|discriminate]. injection C as ->. apply (aget_in _ key_eqb_spec) in A.
      exact (proj1 (proj2 (proj2 (proj2 H)) _ _ _ A) Se). }
    clear C. apply sb in E. destruct E as (cc & s1 & Ec & E). cbn [t_concept] in Ec. apply lifted in Ec. destruct Ec as [Ty ->].
    pose proof (type_of cfg snap _ _ Ty) as TT.
    destruct cc as [cc|].
    { injection E as <- <-. split; [exact H|]. intros q (c & comp & L & S).
      destruct (proj2 (TT cc) eq_refl) as (c' & L' & S'). congruence. }
    assert (Co : leaf_variable snap k Constant).
    { destruct (passive_elementary _ Se) as [(cc & B)|Co]; [|exact Co]. apply TT in B. discriminate B. }
    apply sb in E. destruct E as (rr & s1 & Er & E). cbn [t_exp opt_then] in Er.
    apply sb in E. destruct E as ([] & s2 & Ei & E). injection E as <- <-.
    assert (G : calm s1 /\ right_for k rr).
    { unfold or_else at 1 in Er. apply sb in Er. destruct Er as (o1 & s3 & Er & Eo).
      assert (o1 = rr /\ s3 = s1) as [-> ->] by (destruct o1; [injection Eo as <- <-|injection Eo as <- <-]; auto). clear Eo.
      cbn [t_concept opt_then] in Er. unfold reduce_concept in Er. apply sb in Er. destruct Er as (m & s3 & R & Er).
      apply read_ok in R. destruct R as [R ->]. cbn [new_env e_infer smem existsb] in Er.
      unfold or_else in Er. apply sb in Er. destruct Er as (o2 & s3 & E2 & Er).
      destruct (calm_infer _ _ _ _ _ _ IH Se Co H R E2) as (-> & H3). unfold known in R.
      apply (wide_back cfg snap _ (WidensSame _)) in R. destruct R as (o & L & ->).
      cbn [m_reduction mixed_of_committed] in Er. destruct (get_reduction o) as [q|] eqn:G; cbn [option_map opt_then] in Er.
      - assert (Re : reduces snap k q).
        { unfold get_reduction in G. destruct (c_spec o) as [|comp [y|]|] eqn:S; try discriminate. injection G as ->.
          exists o, comp. auto. }
        pose proof (proj2 (passive_next _ _ Se Re)) as Elq.
        apply sb in Er. destruct Er as (b & s4 & Eb & Er).
        assert (b = false /\ s4 = s3) as [-> ->].
        { unfold is_leaf_variable_concept in Eb. apply sb in Eb. destruct Eb as (f & s5 & Ef & Eb).
          unfold is_free_variable in Ef. apply sb in Ef. destruct Ef as (m & s6 & Rm & [= <- <-]).
          apply read_ok in Rm. destruct Rm as [Rm ->]. unfold known in Rm.
          apply (wide_back cfg snap _ (WidensSame _)) in Rm. destruct Rm as (oq & Lq & ->).
          assert (Fv : m_free (mixed_of_committed oq) = false).
          { cbn. unfold free_variable.
            destruct Elq as [(c & c1 & L1 & S1)|(c1 & rd & L1 & S1)]; rewrite Lq in L1; injection L1 as <-; rewrite S1; reflexivity. }
          rewrite Fv in Eb. cbn [andb] in Eb. now injection Eb as <- <-. }
        unfold and_then, smap in Er. apply sb in Er. destruct Er as (o3 & s5 & Et & Er).
        apply sb in Et. destruct Et as (u & s6 & Et & [= <- <-]). injection Er as <- <-.
        destruct (calm_tree _ _ _ _ _ Elq H3 Et) as (Lq & H6). split; [exact H6|]. exists q. auto.
      - injection Er as <- <-. split; [exact H3|]. intros q (c & comp & L' & S').
        rewrite L in L'. injection L' as <-. unfold get_reduction in G. rewrite S' in G. discriminate. }
    destruct G as ((Q1 & Fi & St1 & U1) & Rr). split; [|exact Rr]. unfold insert_reduction in Ei. injection Ei as <-.
    match goal with |- context [if ?b then _ else _] => destruct b end; [|split; [|split; [|split]]; assumption].
    split; [|split; [|split; [exact St'|]]].
    - destruct Q1 as (A1 & A2 & A3). split; [exact A1|]. split; [exact A2|]. cbn [s_red]. intros X. apply A3. destruct (s_red s1); [reflexivity|discriminate X].
    - intros x' r' X. cbn [s_red] in X.
      apply (in_upd 0 (aset key_eqb (t_key (TLeaf x (Some (Committed k)) kk)) rr)) in X. destruct X as [X|[_ X]].
      + exact (Fi _ _ X).
      + apply (in_aset _ key_eqb_spec) in X. destruct X as [[Q _]|X]; [discriminate Q|exact (Fi _ _ X)].
    - intros k' x' r' X. cbn [s_red] in X.
      apply (in_upd 0 (aset key_eqb (t_key (TLeaf x (Some (Committed k)) kk)) rr)) in X. destruct X as [X|[_ X]].
      + exact (U1 _ _ _ X).
      + apply (in_aset _ key_eqb_spec) in X. destruct X as [[Q ->]|X]; [|exact (U1 _ _ _ X)].
        assert (k' = k) as -> by (unfold t_key in Q; cbn in Q; congruence). split; [intros _; exact Rr|].
        intros Fo. exact (BP _ Fo Se).
  Qed.
  Lemma calm_normal_form n : forall k z v t why s r why' s', settles k z v -> leaf_of k t -> calm s ->
    o_nf (ops n) own t why s = Ok ((r, why'), s') -> calm s' /\ leaf_of z r.
  Proof.
    induction n as [|n IH]; intros k z v t why s r why' s' En Lf H E; [discriminate|].
    cbn [search step o_nf] in E. unfold normal_form in E. apply sb in E. destruct E as (rr & s1 & Er & E).
    destruct (leaf_is _ _ _ N _ _ Lf) as (x & kk & ->).
    destruct (settled_reduce _ _ _ _ _ _ _ (settles_passive _ _ _ En) H Er) as [H1 Rr]. destruct rr as [[t' reason]|].
    - destruct Rr as (q & Re & Lq). exact (IH _ _ _ _ _ _ _ _ _ (settles_next _ _ _ _ En Re) Lq H1 E).
    - injection E as <- <- <-. split; [exact H1|]. rewrite (settles_last _ _ _ En Rr). exact Lf.
  Qed.

  (** ** The answer *)
  Definition calmly (c : ctx) : Prop :=
    c_snap c = snap /\ c_delta c = delta_default /\ c_bound c = [] /\ calm (start_state (c_cache c) (c_tick c)).
  Lemma calm_final s tick : calm s -> calm (start_state (final_cache s) tick).
  Proof.
    intros H. destruct (good_final cfg snap fuel extra s tick (calm_good _ H)) as (Q & _ & Fi). destruct H as (_ & _ & St & U).
    split; [exact Q|]. split; [exact Fi|]. split; [apply steady_final, St|].
    intros k x r X. apply (U k x r). cbn in X. destruct (s_red s); exact X.
  Qed.
  Lemma calm_empty tick : calm (start_state empty_cache tick).
  Proof.
    destruct (good_empty cfg snap fuel extra tick) as (Q & _ & Fi). split; [exact Q|]. split; [exact Fi|].
    split; [apply steady_empty|]. intros k x r [].
  Qed.
  Lemma calm_search {A} (f : env -> SM A) (Post : A -> Prop) c r c' : calmly c -> sclean (f own) ->
    (forall s a s', calm s -> f own s = Ok (a, s') -> calm s' /\ Post a) ->
    with_search f c = Ok (r, c') -> calmly c' /\ exists a, r = Val a /\ Post a.
  Proof.
    intros (H1 & H2 & H3 & H4) Cl K E. unfold with_search in E. rewrite H2, H3 in E.
    destruct (f own (start_state (c_cache c) (c_tick c))) as [[a s]|e|x|] eqn:X; try discriminate.
    - injection E as <- <-. destruct (K _ _ _ H4 X) as [G P]. split; [|eauto].
      split; [exact H1|]. split; [reflexivity|]. split; [reflexivity|]. apply calm_final, G.
    - exfalso. exact (Cl _ _ X).
  Qed.
  Lemma calm_call n : forall k z v t c r c', settles k z v -> leaf_of k t -> calmly c ->
    fst (calls cfg fuel n) t c = Ok (r, c') -> calmly c' /\ r = Val v.
  Proof.
    induction n as [|n IH]; intros k z v t c r c' En Lf H E; [discriminate|]. cbn [calls fst] in E. unfold call_step in E.
    pose proof (search_clean cfg snap fuel fuel) as Cl.
    destruct (leaf_is _ _ _ N _ _ Lf) as (x & kk & ->). cbn [t_concept t_exp] in E.
    apply bind_back in E. destruct E as (str & c1 & E1 & E).
    apply bind_back in E1. destruct E1 as (m & c2 & E1 & E2). unfold c_read in E1.
    apply lift_clean in E1; [|apply clean_read]. destruct E1 as (-> & m' & -> & R). injection E2 as <- <-.
    assert (H' := H). destruct H' as (S & D & _). rewrite S, D in R.
    rewrite (proj1 (elementary_string cfg snap _ _ (passive_elementary _ (settles_passive _ _ _ En)) R)) in E. clear R m'.
    unfold on_irreducible in E. apply bind_back in E. destruct E as (y & c1 & E1 & E).
    apply catch_back in E1. destruct E1 as (z1 & -> & E1). unfold try_reducing_then_call in E1.
    apply bind_back in E1. destruct E1 as (nf & c2 & E2 & E1). unfold c_normal_form in E2.
    apply (calm_search _ (leaf_of z)) in E2; [|exact H| |].
    2:{ unfold ops_of. rewrite S. apply sclean_smap, (oc_nf _ Cl). }
    2:{ intros s a s' G X. unfold ops_of in X. rewrite S in X. unfold smap in X. apply sb in X.
        destruct X as ([a' why] & s1 & X & [= <- <-]). cbn [fst]. exact (calm_normal_form _ _ _ _ _ _ _ _ _ _ En Lf G X). }
    destruct E2 as (H2 & nf' & -> & Lz). pose proof (settles_settled _ _ _ En) as St.
    destruct (key_eqb_spec (t_key nf') (t_key (TLeaf x (Some (Committed k)) kk))) as [Ke|Kn].
    - assert (z = k) as ->.
      { destruct (leaf_is _ _ _ N _ _ Lz) as (x' & kk' & ->). unfold t_key in Ke. cbn in Ke. congruence. }
      apply bind_back in E1. destruct E1 as (inf & c3 & E3 & E1). unfold c_inferred in E3.
      assert (H2' := H2). destruct H2' as (S2 & _).
      apply (calm_search _ (fun r => r = None)) in E3; [|exact H2| |].
      2:{ unfold ops_of. rewrite S2. apply inferred_clean, Cl. }
      2:{ intros s a s' G X. unfold ops_of in X. rewrite S2 in X. exact (calm_inferred _ _ _ _ _ _ _ St Lf G X). }
      destruct E3 as (H3 & a & -> & ->). injection E1 as <- <-. injection E as <- <-. split; [exact H3|].
      destruct (settled_leaf cfg snap fuel LC LR UL lab CI BL _ _ _ St Lf) as (kd & [= -> ->] & _). reflexivity.
    - unfold with_pin in E1. apply obind_ok in E1. destruct E1 as ([r1 c3] & E3 & [= <- <-]).
      apply (IH _ _ _ _ _ _ _ (settles_end _ _ _ En) Lz) in E3; [|exact H2]. destruct E3 as [H3 ->].
      injection E as <- <-. split; [exact H3|reflexivity].
  Qed.
  Lemma calm_expand n k s w kd t s' : elementary snap k -> calm s ->
    o_expand (ops n) own (TLeaf w (Some (Committed k)) kd) s = Ok (t, s') -> calm s' /\ leaf_of k t.
  Proof.
    intros H U E. destruct n as [|n]; [discriminate|]. cbn [search step o_expand] in E. unfold expand in E.
    cbn [t_concept] in E. apply sb in E. destruct E as (comp & s1 & E1 & E). unfold composition_of_concept, smap in E1.
    apply sb in E1. destruct E1 as (m & s2 & R & [= <- <-]). apply read_ok in R. destruct R as [R ->]. unfold known in R.
    cbn [new_env e_delta] in R. rewrite (proj2 (elementary_string cfg snap _ _ H R)) in E.
    destruct (calm_tree n k s t s' H U E). auto.
  Qed.
  Lemma calm_run k z v w c r c' : settles k z v -> means snap w k -> calmly c ->
    run_command cfg fuel w c = Ok (r, c') -> calmly c' /\ r = Val v.
  Proof.
    intros En Me H E. unfold run_command in E. pose proof (search_clean cfg snap fuel fuel) as Cl.
    apply bind_back in E. destruct E as (t & c1 & E1 & E). assert (H' := H). destruct H' as (S & D & _).
    rewrite <- S in Me. destruct (word_read _ _ _ _ _ _ _ F D Me E1) as (kd & -> & ->).
    apply bind_back in E. destruct E as (t & c1 & E2 & E). unfold c_expand in E2.
    apply (calm_search _ (leaf_of k)) in E2; [|exact H| |].
    2:{ unfold ops_of. rewrite S. apply (oc_expand _ Cl). }
    2:{ intros s a s' G X. unfold ops_of in X. rewrite S in X. exact (calm_expand _ _ _ _ _ _ _ (passive_elementary _ (settles_passive _ _ _ En)) G X). }
    destruct E2 as (H1 & t' & -> & Lf). apply bind_back in E. destruct E as (u & c2 & E2 & E).
    assert (exists x kk, t' = TLeaf x (Some (Committed k)) kk /\ kk <> LVariable) as (x & kk & -> & Kk).
    { destruct (passive_named _ (settles_passive _ _ _ En)) as [w' St].
      destruct (settled_leaf cfg snap fuel LC LR UL lab CI BL _ _ _ St Lf) as (kk & -> & Kk). eauto. }
    assert (u = Val (TLeaf x (Some (Committed k)) kk) /\ c2 = c1) as [-> ->].
    { cbn [create_variable_concepts] in E2. destruct kk; try (exfalso; congruence); cbn in E2; injection E2 as <- <-; auto. }
    exact (calm_call _ _ _ _ _ _ _ _ En Lf H1 E).
  Qed.
  Lemma calm_executed k z v w c a c' : ready c -> settles k z v -> means snap w k -> calmly c ->
    execute cfg fuel w c = Ok (a, c') -> a = v /\ c_snap c' = snap /\ c_delta c' = delta_default /\
      calm (start_state (c_cache c') (c_tick c')).
  Proof.
    intros Rd En Me H E. destruct (execute_run cfg fuel w c a c' F Rd E) as (x & c1 & E1 & _ & An & _).
    destruct (calm_run _ _ _ _ _ _ _ En Me H E1) as ((S1 & D1 & _ & G1) & ->). split; [exact An|].
    destruct (execute_quiet _ _ _ _ _ _ _ _ Rd E E1) as (A1 & A2 & A3 & _); [unfold recorded; rewrite D1; reflexivity|].
    destruct H as (S & D & _). rewrite A1, A2, A3. split; [exact S|]. split; [exact D|]. exact G1.
  Qed.

  (** ** What follows from something true is true *)
  Notation truth := (truth cfg snap fuel).
  Hypothesis HB : forall k, holds snap k -> bad k.
  Lemma holds_reduce n : forall k t s r s', holds snap k -> leaf_of k t -> calm s ->
    o_reduce (ops n) own t s = Ok (r, s') -> truth r.
  Proof.
    induction n as [|n IH]; intros k t s r s' Fo Lf Fr E; [discriminate|].
    destruct (leaf_is _ _ _ N _ _ Lf) as (x & kk & ->). cbn [search step o_reduce] in E. unfold reduce in E.
    apply sb in E. destruct E as (cached & s1 & C & E). injection C as C <-. destruct cached as [rr|].
    { exfalso. cbn [new_env e_reds lookup_red] in C. destruct (aget _ _ _) as [y|] eqn:A; [|discriminate].
      apply (aget_in _ key_eqb_spec) in A. exact (proj2 (proj2 (proj2 (proj2 Fr)) _ _ _ A) (HB _ Fo)). }
    clear C. destruct Fo as [k y (o & red & L & Sp) Iy Gy Al].
    apply sb in E. destruct E as (cc & s1 & Ec & E). cbn [t_concept] in Ec. apply lifted in Ec. destruct Ec as [Ty ->].
    destruct cc as [cc|].
    { exfalso. apply (wide_type cfg snap _ (WidensSame _)) in Ty. destruct Ty as (k' & [= <-] & (c' & L' & S')). congruence. }
    apply sb in E. destruct E as (rr & s1 & Er & E). apply sb in E. destruct E as ([] & s2 & _ & [= <- <-]).
    unfold or_else at 1 in Er. apply sb in Er. destruct Er as (o1 & s3 & Er & Er').
    cbn [t_concept opt_then] in Er. unfold reduce_concept in Er. apply sb in Er. destruct Er as (m & s4 & R & Er).
    apply read_ok in R. destruct R as [R ->]. cbn [new_env e_infer smem existsb] in Er.
    unfold or_else in Er. apply sb in Er. destruct Er as (o2 & s4 & E2 & Er).
    assert (T : truth o2).
    2:{ destruct T as (t' & u & why & B & Lu & ->). injection Er as <- <-. injection Er' as <- <-. exists t', u, why. auto. }
    clear Er Er' Ty o1 s3 rr s1 s2.
    unfold known in R. apply (wide_back cfg snap _ (WidensSame _)) in R. destruct R as (o' & L' & ->). rewrite L in L'. injection L' as <-.
    unfold infer_reduction, and_then in E2. apply sb in E2. destruct E2 as (im & s5 & E1 & E2).
    apply lifted in E1. destruct E1 as [Ci ->]. cbn [new_env e_delta] in Ci. rewrite CM in Ci. injection Ci as <-.
    destruct Iy as (im & p & q & Bi & Cp & Cq). rewrite (UM _ Bi) in Cp. clear im Bi.
    unfold or_else at 1 in E2. apply sb in E2. destruct E2 as (o3 & s5 & E2 & E3).
    assert (T : truth o3).
    2:{ destruct T as (t' & u & why & B & Lu & ->). injection E3 as <- <-. exists t', u, why. auto. }
    clear E3 o2 s4.
    cbn [m_find_as_hand mixed_of_committed ch_right aget] in E2. unfold find_as_hand, hand_of in E2.
    destruct (LC _ _ _ Cp) as [_ (o' & L' & A)]. rewrite L in L'. injection L' as <-. rewrite A in E2. cbn [option_map opt_then] in E2.
    apply sb in E2. destruct E2 as (cm & s6 & R & E2). apply read_ok in R. destruct R as [R ->].
    unfold known in R. apply (wide_back cfg snap _ (WidensSame _)) in R. destruct R as (op & Lp & ->).
    destruct (LC _ _ _ Cq) as [_ (op' & Lp' & Aq)]. rewrite Lp in Lp'. injection Lp' as <-.
    assert (Iq : exists w, In (Committed y, w) (m_iter_hand_of cfg (mixed_of_committed op) HRight)).
    { exists (Committed q). apply (committed_hands cfg F). exists y, q. split; [reflexivity|]. split; [reflexivity|]. exact (aget_listed _ _ _ Aq). }
    assert (Al' : forall z w, In (z, w) (m_iter_hand_of cfg (mixed_of_committed op) HRight) ->
                  exists j, z = Committed j /\ (passive j \/ holds snap j)).
    { intros z w J. apply (committed_hands cfg F) in J. destruct J as (j & pj & -> & -> & J). exists j. split; [reflexivity|].
      apply Al. exists imp, p, pj. split; [exact BM|]. split; [exact Cp|]. apply LR. right. exists op. split; [exact Lp|].
      exact (keyed_in _ _ _ (HK _ _ HRight Lp) J). }
    clear Al Lf A Aq Lp Cp Cq. revert s Fr E2 Iq Al'. generalize (m_iter_hand_of cfg (mixed_of_committed op) HRight). intros l.
    induction l as [|[z w] l IL]; intros s Fr E2 (w0 & Iq) Al'; [destruct Iq|].
    destruct (Al' z w (or_introl eq_refl)) as (j & -> & Wj). cbn [find_map] in E2.
    unfold or_else in E2. apply sb in E2. destruct E2 as (o4 & s7 & E2 & E3).
    apply sb in E2. destruct E2 as (cond & s8 & Et & E2).
    assert (Ej : elementary snap j) by (destruct Wj as [En|Fo]; [exact (passive_elementary _ En)|exact (holds_elementary _ Fo)]).
    destruct (calm_tree _ _ _ _ _ Ej Fr Et) as [Lj F8].
    unfold and_then in E2. apply sb in E2. destruct E2 as (o5 & s9 & Er & E2).
    (* what the rest does once the condition is true *)
    assert (Tr : forall u why t', o5 = Some (u, why) -> leaf_of t' u ->
                 (built_in snap t' CTrue -> truth o4) /\ (~ built_in snap t' CTrue -> o4 = None /\ s7 = s9)).
    { intros u why t' -> Lu. destruct (leaf_is _ _ _ N _ _ Lu) as (xu & ku & ->). cbn [t_concept opt_then] in E2.
      apply sb in E2. destruct E2 as (o6 & s10 & Ei & E2). unfold is_concrete_type in Ei.
      apply sb in Ei. destruct Ei as (ty & s11 & Ei & [= <- <-]). apply lifted in Ei. destruct Ei as [Ty ->].
      pose proof (type_of cfg snap _ _ Ty CTrue) as TT. destruct ty as [[]|]; cbn in E2;
        try (split; [intros B; apply TT in B; discriminate B|injection E2 as <- <-; auto]).
      split; [|intros B; exfalso; apply B, TT; reflexivity]. intros B.
      apply sb in E2. destruct E2 as (xt & s12 & Ex & E2). apply sb in E2. destruct E2 as (rt & s13 & _ & [= <- <-]).
      exists t', xt, (RInference rt why). split; [exact B|]. split; [|reflexivity].
      exact (built_in_tree cfg snap fuel F N LR _ _ _ _ _ _ B (steady_reduce cfg snap fuel F N LC LR UL lab CI BL BI ON _ _ _ _ _ (proj1 (proj2 (proj2 F8))) Er) Ex). }
    destruct Wj as [En|Fo].
    - (* a symbol whose declarations are followed *)
      destruct (leaf_is _ _ _ N _ _ Lj) as (xj & kj & ->).
      destruct (settled_reduce _ _ _ _ _ _ _ En F8 Er) as [F9 R9].
      assert (D : truth o4 \/ (o4 = None /\ s7 = s9 /\ untrue snap j)).
      { destruct o5 as [[u why]|].
        - destruct R9 as (q' & Re & Lu). destruct (Tr u why q' eq_refl Lu) as [T1 T2].
          destruct (built_in_dec snap q' CTrue) as [B|B]; [left; exact (T1 B)|]. destruct (T2 B) as [-> ->]. right. split; [reflexivity|]. split; [reflexivity|].
          intros t' Bt Re'. apply B. replace q' with t'; [exact Bt|].
          destruct Re as (c1 & m1 & L1 & S1), Re' as (c2 & m2 & L2 & S2). congruence.
        - injection E2 as <- <-. right. split; [reflexivity|]. split; [reflexivity|]. intros t' _ Re. exact (R9 _ Re). }
      destruct D as [T|(-> & -> & Nd)].
      + destruct T as (t' & u & why & B & Lu & ->). injection E3 as <- <-. exists t', u, why. auto.
      + refine (IL s9 F9 E3 _ (fun z' w' J => Al' z' w' (or_intror J))). destruct Iq as [[= <- <-]|Iq]; [|eauto].
        exfalso. destruct Gy as [(t' & B & Re)|Gy]; [exact (Nd _ B Re)|exact (passive_not_holds _ Gy En)].
    - destruct (IH _ _ _ _ _ Fo Lj F8 Er) as (t' & u & why & B & Lu & ->). destruct (proj1 (Tr u why t' eq_refl Lu) B) as (t2 & u2 & why2 & B2 & Lu2 & ->).
      injection E3 as <- <-. exists t2, u2, why2. auto.
  Qed.

  Variables (tr : nat) (yes : text).
  Hypothesis BT : built_in snap tr CTrue.
  Hypothesis UT : forall a, built_in snap a CTrue -> a = tr.
  Hypothesis ST : settled_symbol snap tr yes.
  Lemma holds_normal_form n k t why s r s' : holds snap k -> leaf_of k t -> calm s -> o_nf (ops n) own t why s = Ok (r, s') -> leaf_of tr (fst r).
  Proof.
    intros Fo Lf Fr X. destruct n as [|n]; [discriminate X|]. cbn [search step o_nf] in X. unfold normal_form in X. apply sb in X. destruct X as (rr & s2 & Er & X).
    pose proof (steady_reduce cfg snap fuel F N LC LR UL lab CI BL BI ON _ _ _ _ _ (proj1 (proj2 (proj2 Fr))) Er) as G2. apply (holds_reduce _ _ _ _ _ _ Fo Lf Fr) in Er.
    destruct Er as (t' & u & why' & B & Lu & ->). rewrite (UT _ B) in Lu.
    rewrite (built_in_normal_form cfg snap fuel N _ _ _ _ _ _ _ _ BT Lu G2 X). exact Lu.
  Qed.
  Lemma comes_normal_form n : forall k t why s r s', comes_true snap k -> leaf_of k t -> calm s -> o_nf (ops n) own t why s = Ok (r, s') -> leaf_of tr (fst r).
  Proof.
    induction n as [|n IH]; intros k t why s r s' Co Lf H E; [discriminate|]. destruct Co as [k Fo|k q P Re Cq].
    - exact (holds_normal_form _ _ _ _ _ _ _ Fo Lf H E).
    - cbn [search step o_nf] in E. unfold normal_form in E. apply sb in E. destruct E as (rr & s1 & Er & E).
      destruct (leaf_is _ _ _ N _ _ Lf) as (x & kk & ->).
      destruct (settled_reduce _ _ _ _ _ _ _ P H Er) as [H1 Rr]. destruct rr as [[t' reason]|]; [|exfalso; exact (Rr _ Re)].
      destruct Rr as (q' & Re' & Lq). rewrite (one_reduction _ _ _ Re Re') in Lq. exact (IH _ _ _ _ _ _ Cq Lq H1 E).
  Qed.
  Lemma comes_call n k t c r c' : comes_true snap k -> leaf_of k t -> held cfg snap fuel c -> calm (start_state (c_cache c) (c_tick c)) ->
    fst (calls cfg fuel n) t c = Ok (r, c') -> held cfg snap fuel c' /\ r = Val yes.
  Proof.
    intros Fo Lf H Fr E. destruct n as [|n]; [discriminate|]. cbn [calls fst] in E. unfold call_step in E.
    pose proof (search_clean cfg snap fuel fuel) as Cl.
    destruct (leaf_is _ _ _ N _ _ Lf) as (x & kk & ->). cbn [t_concept t_exp] in E.
    apply bind_back in E. destruct E as (str & c1 & E1 & E).
    apply bind_back in E1. destruct E1 as (m & c2 & E1 & E2). unfold c_read in E1.
    apply lift_clean in E1; [|apply clean_read]. destruct E1 as (-> & m' & -> & R). injection E2 as <- <-.
    assert (H' := H). destruct H' as (S & D & _). rewrite S, D in R.
    rewrite (proj1 (elementary_string cfg snap _ _ (or_intror (comes_constant _ Fo)) R)) in E. clear R m'.
    unfold on_irreducible in E. apply bind_back in E. destruct E as (y & c1 & E1 & E).
    apply catch_back in E1. destruct E1 as (z1 & -> & E1). unfold try_reducing_then_call in E1.
    apply bind_back in E1. destruct E1 as (nf & c2 & E2 & E1). unfold c_normal_form in E2.
    apply (held_search cfg snap fuel _ (leaf_of tr)) in E2; [|exact H| |].
    2:{ unfold ops_of. rewrite S. apply sclean_smap, (oc_nf _ Cl). }
    2:{ intros s a s' -> G X. unfold ops_of in X. rewrite S in X. unfold smap in X. apply sb in X.
        destruct X as (a' & s1 & X & [= <- <-]). split; [exact (steady_nf cfg snap fuel F N LC LR UL lab CI BL BI ON _ _ _ _ _ _ G X)|].
        exact (comes_normal_form _ _ _ _ _ _ _ Fo Lf Fr X). }
    destruct E2 as (H2 & nf' & -> & Lz). destruct (key_eqb_spec (t_key nf') (t_key (TLeaf x (Some (Committed k)) kk))) as [Ke|Kn].
    - exfalso. destruct (leaf_is _ _ _ N _ _ Lz) as (x' & kk' & ->). unfold t_key in Ke. cbn in Ke.
      assert (k = tr) as -> by congruence. destruct BT as (o & L & Sp).
      assert (C : leaf_variable snap tr Constant) by exact (comes_constant _ Fo). destruct C as (o' & red & L' & S'). congruence.
    - unfold with_pin in E1. apply obind_ok in E1. destruct E1 as ([r1 c3] & E3 & [= <- <-]).
      apply (truth_call cfg snap fuel F N LC LR UL lab CI BL BI ON tr yes BT ST _ _ _ _ _ Lz) in E3; [|exact H2]. destruct E3 as [H3 ->]. injection E as <- <-. split; [exact H3|reflexivity].
  Qed.
  Lemma comes_run k w c r c' : comes_true snap k -> means snap w k -> goes_by snap k w -> is_variable_text w = false ->
    calmly c -> run_command cfg fuel w c = Ok (r, c') -> held cfg snap fuel c' /\ r = Val yes.
  Proof.
    intros Fo Me G V H E. unfold run_command in E. pose proof (search_clean cfg snap fuel fuel) as Cl.
    assert (H' := H). destruct H' as (Sn & D & _).
    apply bind_back in E. destruct E as (t & c1 & E1 & E). rewrite <- Sn in Me. destruct (word_read _ _ _ _ _ _ _ F D Me E1) as (kd & -> & ->).
    apply bind_back in E. destruct E as (t & c1 & E2 & E). unfold c_expand in E2.
    apply (calm_search _ (leaf_of k)) in E2; [|exact H| |].
    2:{ unfold ops_of. rewrite Sn. apply (oc_expand _ Cl). }
    2:{ intros s a s' Gs X. unfold ops_of in X. rewrite Sn in X. exact (calm_expand _ _ _ _ _ _ _ (or_intror (comes_constant _ Fo)) Gs X). }
    destruct E2 as (H1 & a & -> & Lf). apply bind_back in E. destruct E as (u & c2 & E2 & E).
    destruct (named_leaf cfg snap fuel LC LR UL lab CI BL k w a Lf G) as (kk & -> & Kk).
    { intros v (o & L & Sp). assert (C : leaf_variable snap k Constant) by exact (comes_constant _ Fo). destruct C as (o' & red & L' & Sp'). congruence. }
    specialize (Kk V). cbn [create_variable_concepts] in E2.
    assert (u = Val (TLeaf w (Some (Committed k)) kk) /\ c2 = c1) as [-> ->].
    { destruct kk; try (exfalso; congruence); cbn in E2; injection E2 as <- <-; auto. }
    destruct H1 as (S1 & D1 & B1 & C1).
    refine (comes_call fuel k _ c1 r c' Fo Lf _ C1 E).
    split; [exact S1|]. split; [exact D1|]. split; [exact B1|]. exact (proj1 (proj2 (proj2 C1))).
  Qed.
  Lemma comes_executed k w c a c' : ready c -> comes_true snap k -> means snap w k -> goes_by snap k w -> is_variable_text w = false ->
    calmly c -> execute cfg fuel w c = Ok (a, c') -> a = yes /\ c_snap c' = snap.
  Proof.
    intros Rd Fo Me G V H E. destruct (execute_run cfg fuel w c a c' F Rd E) as (x & c1 & E1 & _ & An & _).
    destruct (comes_run _ _ _ _ _ Fo Me G V H E1) as ((S1 & D1 & _) & ->). split; [exact An|].
    destruct (execute_quiet _ _ _ _ _ _ _ _ Rd E E1) as (A1 & _); [unfold recorded; rewrite D1; reflexivity|]. destruct H as (Sn & _). congruence.
  Qed.

  (** ** What is implied in a circle is never answered *)
  Variable S : nat -> Prop.
  Hypothesis SC : trap snap S.
  Hypothesis SB : forall k, S k -> bad k.
  Lemma trap_reduce n : forall k t s r s', S k -> leaf_of k t -> calm s -> o_reduce (ops n) own t s = Ok (r, s') -> False.
  Proof.
    induction n as [|n IH]; intros k t s r s' H Lf U E; [discriminate|].
    destruct (leaf_is _ _ _ N _ _ Lf) as (x & kk & ->). cbn [search step o_reduce] in E. unfold reduce in E.
    apply sb in E. destruct E as (cached & s1 & C & E). injection C as C <-. destruct cached as [rr|].
    { cbn [new_env e_reds lookup_red] in C. destruct (aget _ _ _) as [y|] eqn:A; [|discriminate].
      apply (aget_in _ key_eqb_spec) in A. exact (proj2 (proj2 (proj2 (proj2 U)) _ _ _ A) (SB _ H)). }
    clear C. destruct (SC _ H) as ((o & red & L & Sp) & (y & Iy & Sy) & Cl).
    apply sb in E. destruct E as (cc & s1 & Ec & E). cbn [t_concept] in Ec. apply lifted in Ec. destruct Ec as [Ty ->].
    destruct cc as [cc|].
    { apply (wide_type cfg snap _ (WidensSame _)) in Ty. destruct Ty as (k' & [= <-] & (c' & L' & S')). congruence. }
    apply sb in E. destruct E as (rr & s1 & Er & _). unfold or_else at 1 in Er. apply sb in Er. destruct Er as (o1 & s3 & Er & _).
    cbn [t_concept opt_then] in Er. unfold reduce_concept in Er. apply sb in Er. destruct Er as (m & s4 & R & Er).
    apply read_ok in R. destruct R as [R ->]. cbn [new_env e_infer smem existsb] in Er.
    unfold or_else in Er. apply sb in Er. destruct Er as (o2 & s4 & E2 & _). clear rr s1 o1 s3.
    unfold known in R. apply (wide_back cfg snap _ (WidensSame _)) in R. destruct R as (o' & L' & ->). rewrite L in L'. injection L' as <-.
    unfold infer_reduction, and_then in E2. apply sb in E2. destruct E2 as (im & s5 & E1 & E2).
    apply lifted in E1. destruct E1 as [Ci ->]. cbn [new_env e_delta] in Ci. rewrite CM in Ci. injection Ci as <-.
    destruct Iy as (im & p & q & Bi & Cp & Cq). rewrite (UM _ Bi) in Cp. clear im Bi.
    unfold or_else at 1 in E2. apply sb in E2. destruct E2 as (o3 & s5 & E2 & _).
    cbn [m_find_as_hand mixed_of_committed ch_right aget] in E2. unfold find_as_hand, hand_of in E2.
    destruct (LC _ _ _ Cp) as [_ (o' & L' & A)]. rewrite L in L'. injection L' as <-. rewrite A in E2. cbn [option_map opt_then] in E2.
    apply sb in E2. destruct E2 as (cm & s6 & R & E2). apply read_ok in R. destruct R as [R ->].
    unfold known in R. apply (wide_back cfg snap _ (WidensSame _)) in R. destruct R as (op & Lp & ->).
    destruct (LC _ _ _ Cq) as [_ (op' & Lp' & Aq)]. rewrite Lp in Lp'. injection Lp' as <-.
    assert (Iq : In (Committed y, Committed q) (m_iter_hand_of cfg (mixed_of_committed op) HRight)).
    { apply (committed_hands cfg F). exists y, q. split; [reflexivity|]. split; [reflexivity|]. exact (aget_listed _ _ _ Aq). }
    assert (Al : forall z w, In (z, w) (m_iter_hand_of cfg (mixed_of_committed op) HRight) -> exists j, z = Committed j /\ (S j \/ (untrue snap j /\ passive j))).
    { intros z w J. apply (committed_hands cfg F) in J. destruct J as (j & pj & -> & -> & J). exists j. split; [reflexivity|].
      apply Cl. exists imp, p, pj. split; [exact BM|]. split; [exact Cp|]. apply LR. right. exists op. split; [exact Lp|].
      exact (keyed_in _ _ _ (HK _ _ HRight Lp) J). }
    clear Lf A Aq Lp Cp Cq Cl L Sp. revert s U E2 Iq Al. generalize (m_iter_hand_of cfg (mixed_of_committed op) HRight). intros l.
    induction l as [|[z w] l IL]; intros s U E2 Iq Al; [destruct Iq|].
    destruct (Al z w (or_introl eq_refl)) as (j & -> & Wj). cbn [find_map] in E2.
    unfold or_else in E2. apply sb in E2. destruct E2 as (o4 & s7 & E2 & E3).
    apply sb in E2. destruct E2 as (cond & s8 & Et & E2).
    assert (Ej : elementary snap j).
    { destruct Wj as [Sj|[_ P]]; [right; exact (proj1 (SC _ Sj))|exact (passive_elementary _ P)]. }
    destruct (calm_tree _ _ _ _ _ Ej U Et) as [Lj U8].
    unfold and_then in E2. apply sb in E2. destruct E2 as (o5 & s9 & Er & E2).
    destruct Wj as [Sj|[Nd P]]; [exact (IH _ _ _ _ _ Sj Lj U8 Er)|].
    destruct (leaf_is _ _ _ N _ _ Lj) as (xj & kj & ->). destruct (settled_reduce _ _ _ _ _ _ _ P U8 Er) as [U9 R9].
    assert (D : o4 = None /\ s7 = s9).
    { destruct o5 as [[u why]|]; [|injection E2 as <- <-; auto].
      destruct R9 as (q' & Re & Lu). destruct (leaf_is _ _ _ N _ _ Lu) as (xu & ku & ->). cbn [t_concept opt_then] in E2.
      apply sb in E2. destruct E2 as (o6 & s10 & Ei & E2). unfold is_concrete_type in Ei.
      apply sb in Ei. destruct Ei as (ty & s11 & Ei & [= <- <-]). apply lifted in Ei. destruct Ei as [Ty' ->].
      pose proof (type_of cfg snap _ _ Ty' CTrue) as TT. destruct ty as [[]|]; cbn in E2; try (injection E2 as <- <-; auto).
      exfalso. exact (Nd q' (proj2 TT eq_refl) Re). }
    destruct D as [-> ->]. refine (IL s9 U9 E3 _ (fun z' w' J => Al z' w' (or_intror J))).
    destruct Iq as [[= <- <-]|Iq]; [|exact Iq]. exfalso. exact (BP _ (SB _ Sy) P).
  Qed.
  Lemma trapped_constant k : trapped snap S k -> leaf_variable snap k Constant.
  Proof. intros [k' Sk|k' q P Re _]; [exact (proj1 (SC _ Sk))|exact (proj1 (passive_next _ _ P Re))]. Qed.
  Lemma trap_normal_form n : forall k t why s r s', trapped snap S k -> leaf_of k t -> calm s -> o_nf (ops n) own t why s = Ok (r, s') -> False.
  Proof.
    induction n as [|n IH]; intros k t why s r s' Tk Lf H E; [discriminate|]. cbn [search step o_nf] in E. unfold normal_form in E.
    apply sb in E. destruct E as (rr & s1 & Er & E). destruct Tk as [k Sk|k q P Re Tq]; [exact (trap_reduce _ _ _ _ _ _ Sk Lf H Er)|].
    destruct (leaf_is _ _ _ N _ _ Lf) as (x & kk & ->).
    destruct (settled_reduce _ _ _ _ _ _ _ P H Er) as [H1 Rr]. destruct rr as [[t' reason]|]; [|exact (Rr _ Re)].
    destruct Rr as (q' & Re' & Lq). rewrite (one_reduction _ _ _ Re Re') in Lq. exact (IH _ _ _ _ _ _ Tq Lq H1 E).
  Qed.
  Lemma trap_call n k t c r c' : trapped snap S k -> leaf_of k t -> calmly c -> fst (calls cfg fuel n) t c = Ok (r, c') -> False.
  Proof.
    intros H Lf (Sn & D & B & U) E. destruct n as [|n]; [discriminate|]. cbn [calls fst] in E. unfold call_step in E.
    pose proof (search_clean cfg snap fuel fuel) as Cl.
    destruct (leaf_is _ _ _ N _ _ Lf) as (x & kk & ->). cbn [t_concept t_exp] in E.
    apply bind_back in E. destruct E as (str & c1 & E1 & E).
    apply bind_back in E1. destruct E1 as (m & c2 & E1 & E2). unfold c_read in E1.
    apply lift_clean in E1; [|apply clean_read]. destruct E1 as (-> & m' & -> & R). injection E2 as <- <-.
    rewrite Sn, D in R. rewrite (proj1 (elementary_string cfg snap _ _ (or_intror (trapped_constant _ H)) R)) in E. clear R m'.
    unfold on_irreducible in E. apply bind_back in E. destruct E as (y & c1 & E1 & E).
    apply catch_back in E1. destruct E1 as (z1 & -> & E1). unfold try_reducing_then_call in E1.
    apply bind_back in E1. destruct E1 as (nf & c2 & E2 & _). unfold c_normal_form, with_search in E2. rewrite D, B in E2.
    destruct (smap fst _ (start_state (c_cache c) (c_tick c))) as [[a s]|er|si|] eqn:X; try discriminate E2.
    - unfold ops_of in X. rewrite Sn in X. unfold smap in X. apply sb in X. destruct X as ([a' why] & s1 & X & _).
      exact (trap_normal_form _ _ _ _ _ _ _ H Lf U X).
    - unfold ops_of in X. rewrite Sn in X. revert X. apply sclean_smap, (oc_nf _ Cl).
  Qed.
  Lemma trap_run k w c r c' : trapped snap S k -> means snap w k -> goes_by snap k w -> is_variable_text w = false ->
    calmly c -> run_command cfg fuel w c = Ok (r, c') -> False.
  Proof.
    intros Tk Me G V H E. unfold run_command in E. pose proof (search_clean cfg snap fuel fuel) as Cl.
    assert (H' := H). destruct H' as (Sn & D & _).
    apply bind_back in E. destruct E as (t & c1 & E1 & E). rewrite <- Sn in Me. destruct (word_read _ _ _ _ _ _ _ F D Me E1) as (kd & -> & ->).
    apply bind_back in E. destruct E as (t & c1 & E2 & E). unfold c_expand in E2.
    apply (calm_search _ (leaf_of k)) in E2; [|exact H| |].
    2:{ unfold ops_of. rewrite Sn. apply (oc_expand _ Cl). }
    2:{ intros s a s' Gs X. unfold ops_of in X. rewrite Sn in X. exact (calm_expand _ _ _ _ _ _ _ (or_intror (trapped_constant _ Tk)) Gs X). }
    destruct E2 as (H1 & a & -> & Lf). apply bind_back in E. destruct E as (u & c2 & E2 & E).
    destruct (named_leaf cfg snap fuel LC LR UL lab CI BL k w a Lf G) as (kk & -> & Kk).
    { intros v (o & L & Sp). destruct (trapped_constant _ Tk) as (o' & red & L' & Sp'). congruence. }
    specialize (Kk V). cbn [create_variable_concepts] in E2.
    assert (u = Val (TLeaf w (Some (Committed k)) kk) /\ c2 = c1) as [-> ->].
    { destruct kk; try (exfalso; congruence); cbn in E2; injection E2 as <- <-; auto. }
    exact (trap_call _ _ _ _ _ _ Tk Lf H1 E).
  Qed.
  Lemma trap_executed k w c a c' : ready c -> trapped snap S k -> means snap w k -> goes_by snap k w -> is_variable_text w = false ->
    calmly c -> execute cfg fuel w c <> Ok (a, c').
  Proof.
    intros Rd Tk Me G V H E. destruct (execute_run cfg fuel w c a c' F Rd E) as (x & c1 & E1 & _). exact (trap_run _ _ _ _ _ Tk Me G V H E1).
  Qed.
End Store.
