(** What the trees made for concepts look like while a symbol is evaluated. *)
From Verif Require Import Snapshot Search StoreSpec StoreFacts MapFacts AstSpec AstFacts SearchKeeps SearchCaches
  Questions Existence Wide Earned.
From Coq Require Import List PeanoNat Bool.
Import ListNotations.
Local Open Scope zia_scope.

Section Shapes.
  Variables (cfg : config) (snap : snapshot) (rf : nat).
  Notation ops n := (search cfg snap rf n).
  Hypothesis N : self_numbered snap.
  Hypothesis LR : listed_compositions_are_real snap.

  (** The environments in which nothing but free variables of rules has a value, no existence is in
      question and nothing but further bound variables is pending. *)
  Definition masks_variables (e : env) : Prop :=
    forall c t, ml_get (e_mask e) c = Some t -> exists n, c = Committed n /\ leaf_variable snap n FreeVariable.
  Definition simple (e : env) : Prop :=
    widens delta_default (e_delta e) /\ e_bound e = [] /\ masks_variables e.

  Definition label_for (o : concept nat) (n : nat) : outcome (option text) :=
    match get_string o with
    | Some s => Ok (Some (format_string s))
    | None => get_label cfg snap delta_default rf (Committed n)
    end.
  Definition leaf_of (n : nat) (t : tree) : Prop :=
    exists o lab, lookup snap n = Some o /\ label_for o n = Ok lab /\
      match lab with
      | Some s => bind_concept_to_syntax cfg snap delta_default (from_text s) (Committed n) = Ok t
      | None => get_composition o = None /\ t = new_syntax_from_leaf_concept (mixed_of_committed o)
      end.
  (** The tree [t] was made for the concept [n]; any tree may stand for a free variable. *)
  Inductive shape : nat -> tree -> Prop :=
  | ShapeMasked n t : leaf_variable snap n FreeVariable -> shape n t
  | ShapeLeaf n t : leaf_of n t -> shape n t
  | ShapePair n x y a b t : composed snap n x y -> shape x a -> shape y b -> t_exp t = Some (a, b) -> shape n t.
  Definition shaped (s : sstate) : Prop :=
    forall h n t, In (Committed n, t) (nth h (s_syn s) []) -> shape n t.

  Lemma leaf_is n t : leaf_of n t -> exists s k, t = TLeaf s (Some (Committed n)) k.
  Proof.
    intros (o & lab & L & _ & T). destruct lab as [s|].
    - unfold bind_concept_to_syntax in T. apply obind_ok in T. destruct T as (ty & _ & T).
      destruct (opt_cct_eqb ty _).
      + unfold bind_quantifier in T. apply obind_ok in T. destruct T as (u & _ & [= <-]). eauto.
      + injection T as <-. cbn. eauto.
    - destruct T as [_ ->]. pose proof (N _ _ L) as Id. unfold new_syntax_from_leaf_concept. cbn [m_id mixed_of_committed].
      rewrite Id. destruct (opt_cct_eqb _ _); [|destruct (m_anonymous _)]; unfold new_quantifier_concept, new_leaf_variable,
        new_constant_concept; eauto.
  Qed.
  Lemma simple_bind e t n : widens delta_default (e_delta e) ->
    bind_concept_to_syntax cfg snap (e_delta e) t (Committed n) = bind_concept_to_syntax cfg snap delta_default t (Committed n).
  Proof.
    intros W. unfold bind_concept_to_syntax, concrete_concept_type, omap. rewrite (wide_read cfg snap _ W). reflexivity.
  Qed.
  Hypothesis F : fair cfg.
  Lemma composition_found e l r s c s' : simple e -> composition_concept cfg snap e l r s = Ok (Some c, s') ->
    exists n a b, c = Committed n /\ composed snap n a b.
  Proof.
    intros (W & _) E. unfold composition_concept in E. destruct (t_concept l) as [lc|]; [|discriminate].
    destruct (t_concept r) as [rc|]; [|discriminate]. apply sb in E. destruct E as (m & s1 & R & E).
    apply read_ok in R. destruct R as [R ->]. unfold known in R. injection E as E _. destruct lc as [n|u].
    - apply (wide_back cfg snap _ W) in R. destruct R as (o & L & ->).
      cbn [m_find_as_hand mixed_of_committed ch_left aget] in E. destruct rc as [k|]; [|discriminate].
      unfold find_as_hand, hand_of in E. destruct (aget Nat.eqb k (lefthand_of o)) as [p|] eqn:A; [|discriminate].
      injection E as <-. exists p, n, k. split; [reflexivity|]. apply LR. left. exists o. auto.
    - apply (wide_other cfg snap _ W) in R. subst m. discriminate.
  Qed.
  Lemma combined_exp n e l r s t s' : simple e -> combine_ast cfg snap (ops n) e l r s = Ok (t, s') -> t_exp t = Some (l, r).
  Proof.
    intros Se E. unfold combine_ast in E. apply sb in E. destruct E as (c & s1 & C & E).
    apply sb in E. destruct E as (j & s2 & J & E).
    assert (X : t_exp j = Some (l, r)).
    { unfold join in J. apply sb in J. destruct J as (w & s3 & _ & [= <- _]). unfold bind_pair, branch.
      destruct (pair_vars l r). reflexivity. }
    destruct c as [c|]; [|injection E as <- _; exact X].
    destruct (composition_found _ _ _ _ _ _ Se C) as (p & a & b & -> & (o & fv & bv & red & L & S)).
    unfold slift in E. apply obind_ok in E. destruct E as (u & E & [= <- _]).
    rewrite (simple_bind e j p (proj1 Se)) in E. unfold bind_concept_to_syntax in E. apply obind_ok in E.
    destruct E as (ty & Ty & E).
    assert (ty = None).
    { unfold concrete_concept_type, omap in Ty. apply obind_ok in Ty. destruct Ty as (m & R & [= <-]).
      apply (wide_back cfg snap _ (WidensSame _)) in R. destruct R as (o' & L' & ->). rewrite L in L'. injection L' as <-.
      cbn. unfold get_concrete. rewrite S. reflexivity. }
    subst ty. cbn in E. injection E as <-. destruct j; [discriminate X|]. exact X.
  Qed.

  Lemma to_ast_shape n : (forall n' e' c' s3 t' s4, n' <= n -> simple e' -> shaped s3 ->
       o_to_ast (ops n') e' c' s3 = Ok (t', s4) -> shaped s4) ->
    forall k e c s t s', k <= S n -> simple e -> shaped s -> o_to_ast (ops k) e (Committed c) s = Ok (t, s') -> shape c t.
  Proof.
    intros K k. induction k as [|k IH]; intros e c s t s' Lk Se H E; [discriminate|].
    cbn [search step o_to_ast] in E. unfold to_ast in E. destruct (ml_get (e_mask e) (Committed c)) as [u|] eqn:M.
    { apply ShapeMasked. destruct (proj2 (proj2 Se) _ _ M) as (i & [= <-] & V). exact V. }
    apply sb in E. destruct E as (cached & s1 & C & E). injection C as C <-. destruct cached as [u|].
    { injection E as -> _. apply (aget_in _ cid_eqb_spec) in C. exact (H _ _ _ C). }
    apply sb in E. destruct E as (m & s1 & R & E). apply read_ok in R. destruct R as [R ->]. unfold known in R.
    apply (wide_back cfg snap _ (proj1 Se)) in R. destruct R as (o & L & ->).
    apply sb in E. destruct E as (lab & s1 & El & E).
    assert (Q : label_for o c = Ok lab /\ s1 = s).
    { unfold label_for. cbn [m_string mixed_of_committed] in El. destruct (get_string o); [injection El as <- <-; auto|].
      unfold slift in El. apply obind_ok in El. destruct El as (x & El & [= -> ->]). split; [|reflexivity].
      exact (wide_label cfg snap F _ (proj1 Se) _ _ _ El). }
    destruct Q as [Q ->].
    apply sb in E. destruct E as (u & s2 & Eu & E). apply sb in E. destruct E as (y & s3 & _ & E). injection E as -> _.
    destruct lab as [w|].
    { apply ShapeLeaf. exists o, (Some w). split; [exact L|]. split; [exact Q|]. unfold slift in Eu. apply obind_ok in Eu.
      destruct Eu as (v & Eu & [= -> _]). rewrite <- (simple_bind e _ _ (proj1 Se)). exact Eu. }
    cbn [m_composition mixed_of_committed] in Eu. destruct (get_composition o) as [[a b]|] eqn:G.
    - apply sb in Eu. destruct Eu as (lt & s4 & El' & Eu). apply sb in Eu. destruct Eu as (rt & s5 & Er & Eu).
      assert (H4 : shaped s4) by (eapply K; [|exact Se|exact H|exact El']; apply le_S_n, Lk).
      assert (Lk' : k <= S n) by (apply Nat.le_trans with (S k); [apply Nat.le_succ_diag_r|exact Lk]).
      apply (ShapePair c a b lt rt).
      + unfold get_composition in G. destruct (c_spec o) as [|[l r fv bv|] red|] eqn:S; try discriminate.
        injection G as -> ->. exists o, fv, bv, red. auto.
      + exact (IH _ _ _ _ _ Lk' Se H El').
      + exact (IH _ _ _ _ _ Lk' Se H4 Er).
      + exact (combined_exp _ _ _ _ _ _ _ Se Eu).
    - apply ShapeLeaf. exists o, None. split; [exact L|]. split; [exact Q|]. injection Eu as <- _. auto.
  Qed.

  (** Masks come from rules, and give values to the free variables of the rules only. *)
  Lemma merge_keys lm : forall rm m k v, merge_masks lm rm = Some m -> In (k, v) m -> In k (map fst lm) \/ In k (map fst rm).
  Proof.
    induction lm as [|[k0 v0] lm IH]; intros rm m k v E H; cbn [merge_masks] in E.
    - injection E as <-. right. apply in_map_iff. exists (k, v). auto.
    - destruct (aget cid_eqb k0 rm) as [w|].
      + destruct (key_eqb _ _); [|discriminate]. destruct (IH _ _ _ _ E H) as [X|X]; [left; right; exact X|right; exact X].
      + destruct (IH _ _ _ _ E H) as [X|X]; [left; right; exact X|]. apply in_map_iff in X. destruct X as ([k1 v1] & Q & X).
        cbn in Q. subst k1. apply (in_aset _ cid_eqb_spec) in X. destruct X as [[-> _]|X]; [left; left; reflexivity|].
        right. apply in_map_iff. exists (k, v1). auto.
  Qed.
  Lemma free_leaf e g s b s' s1 o s2 : simple e ->
    is_free_variable cfg snap e g s = Ok (b, s') -> b = true -> composition_of_concept cfg snap e g s1 = Ok (o, s2) -> o = None ->
    exists n, g = Committed n /\ leaf_variable snap n FreeVariable.
  Proof.
    intros (W & _) E -> C ->. unfold is_free_variable in E. apply sb in E. destruct E as (m & s3 & R & E).
    apply read_ok in R. destruct R as [R ->]. unfold known in R. injection E as E _. apply andb_true_iff in E. destruct E as [E _].
    apply composition_ok in C. destruct C as (m' & R' & C). unfold known in R'. rewrite R in R'. injection R' as <-.
    destruct g as [n|u].
    - apply (wide_back cfg snap _ W) in R. destruct R as (o & L & ->). exists n. split; [reflexivity|].
      cbn [m_free mixed_of_committed m_composition] in E, C. unfold free_variable in E. unfold get_composition in C.
      destruct (c_spec o) as [|[l r fv bv|[]] red|] eqn:S; try discriminate. exists o, red. auto.
    - apply (wide_other cfg snap _ W) in R. subst m. discriminate.
  Qed.
  Lemma generalisation_masks e : simple e -> forall t g s vm s',
    check_generalisation cfg snap e t g s = Ok (Some vm, s') -> forall c v, In (c, v) vm ->
    exists n, c = Committed n /\ leaf_variable snap n FreeVariable.
  Proof.
    intros Se. induction t as [x c k|x c l IHl r IHr fv bv]; intros g s vm s' E c0 v0 I; cbn [check_generalisation] in E;
      (apply sb in E; destruct E as (f & s1 & Ef & E); destruct f; [|discriminate]; cbn [negb] in E;
       destruct (smem _ _ _); [discriminate|]; apply sb in E; destruct E as (bb & s2 & Eb & E); destruct bb; [discriminate|];
       apply sb in E; destruct E as (comp & s3 & Ec & E); destruct comp as [[gl gr]|];
       [|injection E as <- _; destruct I as [[= <- <-]|[]]; exact (free_leaf _ _ _ _ _ _ _ _ Se Ef eq_refl Ec eq_refl)]).
    { discriminate. }
    apply sb in E. destruct E as (fl & s4 & _ & E). apply sb in E. destruct E as (fr & s5 & _ & E).
    destruct fl, fr.
    - apply sb in E. destruct E as (lm & s6 & El & E). apply sb in E. destruct E as (rm & s7 & Er & E).
      destruct lm as [lm|]; [|discriminate]. destruct rm as [rm|]; [|discriminate]. injection E as E _.
      destruct (merge_keys _ _ _ _ _ E I) as [X|X]; apply in_map_iff in X; destruct X as ([k w] & <- & X); cbn.
      + exact (IHl _ _ _ _ El _ _ X).
      + exact (IHr _ _ _ _ Er _ _ X).
    - destruct (option_eqb _ _ _); [|discriminate]. exact (IHl _ _ _ _ E _ _ I).
    - destruct (option_eqb _ _ _); [|discriminate]. exact (IHr _ _ _ _ E _ _ I).
    - destruct (_ && _); [|discriminate]. injection E as <- _. destruct I.
  Qed.
  Lemma simple_mask e e0 vm ml t g s s1 : simple e -> simple e0 -> check_generalisation cfg snap e t g s = Ok (Some vm, s1) ->
    ml_push (e_mask e0) vm = Some ml -> simple (with_mask e0 ml).
  Proof.
    intros Se (W & B & M) E Pu. split; [exact W|]. split; [exact B|]. intros c u G. cbn [with_mask e_mask] in G.
    unfold ml_push in Pu. destruct (ml_contains _ _); [discriminate|]. injection Pu as <-. cbn [ml_get] in G.
    destruct (aget cid_eqb c vm) as [w|] eqn:A; [|exact (M _ _ G)]. apply (aget_in _ cid_eqb_spec) in A.
    exact (generalisation_masks e Se _ _ _ _ _ E _ _ A).
  Qed.
  Lemma simple_spawn e h d s e' s' : simple e -> widens (e_delta e) d -> spawn e h d s = Ok (e', s') -> simple e'.
  Proof.
    intros (W & B & M) Wd E. unfold spawn in E. apply sb in E. destruct E as (sy & s1 & _ & [= <- _]).
    split; [exact (widens_trans _ _ _ W Wd)|]. split; [exact B|exact M].
  Qed.
  Lemma simple_infer e c : simple e -> simple (with_inferring e c).
  Proof. destruct c; intros H; exact H. Qed.
  Lemma shaped_new s : shaped s -> shaped (SState (s_red s ++ [[]]) (s_syn s) (s_inf s) (s_tick s)).
  Proof. intros H. exact H. Qed.
  Lemma shaped_more s : shaped s -> shaped (SState (s_red s) (s_syn s ++ [[]]) (s_inf s) (s_tick s)).
  Proof. intros H h n t I. cbn [s_syn] in I. apply in_more in I. exact (H _ _ _ I). Qed.
  Lemma shaped_insert e c m t s s' : shaped s -> read_concept cfg snap (e_delta e) c = Ok m ->
    (forall n, c = Committed n -> shape n t) -> insert_syntax e m t s = Ok (tt, s') -> shaped s'.
  Proof.
    intros H R T E. unfold insert_syntax in E. injection E as <-. destruct (m_anonymous m); [exact H|].
    apply (read_id _ _ _ _ _ N) in R. rewrite R. intros h n u I. cbn [s_syn] in I. apply in_upd in I.
    destruct I as [I|[-> I]]; [exact (H _ _ _ I)|]. apply (in_aset _ cid_eqb_spec) in I.
    destruct I as [[E ->]|I]; [apply T; symmetry; exact E|exact (H _ _ _ I)].
  Qed.

  Lemma shape_laws : cache_laws cfg snap rf shaped (fun _ _ => True) simple simple (fun _ => True).
  Proof.
    constructor; try (intros; exact I); try (intros; assumption).
    - intros s n H. split; [exact H|exact I].
    - intros s h s' H [= <- <-]. split; [exact I|]. split; [exact H|exact I].
    - intros e h d s e' s' Se _ Wd H E. split; [exact (simple_spawn _ _ _ _ _ _ Se Wd E)|]. split; [|exact I].
      unfold spawn in E. apply sb in E. destruct E as (sy & s1 & [= <- <-] & [= _ <-]). apply shaped_more, H.
    - intros e e0 vm ml t g s s1 Se S0 _ E Pu. exact (simple_mask _ _ _ _ _ _ _ _ Se S0 E Pu).
    - intros e c. apply simple_infer.
    - intros n e t s r s1 s2 _ _ _ H1 _ E _. split; [|exact I]. unfold insert_reduction in E. injection E as <-.
      match goal with |- context [if ?b then _ else _] => destruct b end; exact H1.
    - intros n e c m t s s1 s2 Se H _ _ R H1 _ E K T. split; [|exact I].
      refine (shaped_insert e c m t s1 s2 H1 R _ E). intros k ->.
      exact (to_ast_shape n K (S n) e k s t s2 (le_n _) Se H T).
    - intros n e c t r s s1 s2 _ _ _ _ _ H _ _ _. split; [exact H|exact I].
  Qed.
  (** The tree made for a concept in such an environment. *)
  Lemma tree_shape n e c s t s' : simple e -> shaped s -> o_to_ast (ops n) e (Committed c) s = Ok (t, s') -> shape c t.
  Proof.
    intros Se H E. refine (to_ast_shape n _ n e c s t s' (Nat.le_succ_diag_r n) Se H E). intros n' e' c' s3 t' s4 _ Se' H3 E3.
    pose proof (search_kp _ _ _ _ _ _ _ _ shape_laws n') as OB. exact (proj1 (kp_to_ast _ _ _ _ OB e' c' Se' _ _ _ H3 E3)).
  Qed.
  (** A concept that is no variable and has no parts has a leaf. *)
  Lemma shape_leaf n t : shape n t -> ~ leaf_variable snap n FreeVariable -> (forall a b, ~ composed snap n a b) -> leaf_of n t.
  Proof. intros S V C. destruct S as [n t H|n t H|n x y a b t H]; [contradiction|exact H|]. exfalso. exact (C _ _ H). Qed.
End Shapes.
