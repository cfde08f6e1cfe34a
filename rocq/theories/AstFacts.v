(** Lemmas about syntax trees, variable assignments and masks. *)
From Verif Require Import Ast AstSpec MapFacts.
From Coq Require Import List Bool Lia.
Import ListNotations.

Lemma option_eqb_spec {A} (eqb : A -> A -> bool) :
  (forall a b, reflect (a = b) (eqb a b)) ->
  forall a b, reflect (a = b) (option_eqb eqb a b).
Proof.
  intros H [a|] [b|]; cbn; try (constructor; congruence).
  destruct (H a b); constructor; congruence.
Qed.

Lemma key_eqb_spec a b : reflect (a = b) (key_eqb a b).
Proof.
  destruct a as [a1 a2], b as [b1 b2]. unfold key_eqb; cbn.
  destruct (option_eqb_spec _ text_eqb_spec a1 b1); cbn; [|constructor; congruence].
  destruct (option_eqb_spec _ cid_eqb_spec a2 b2); constructor; congruence.
Qed.

Lemma same_expr_key a b : same_expr a b <-> t_key a = t_key b.
Proof. unfold same_expr, t_key. split; [intros [-> ->]; reflexivity|]. intros H; injection H; auto. Qed.
Lemma same_expr_sym a b : same_expr a b -> same_expr b a.
Proof. intros [H G]; split; auto. Qed.
Lemma same_expr_trans a b c : same_expr a b -> same_expr b c -> same_expr a c.
Proof. intros [H1 H2] [G1 G2]; split; congruence. Qed.
Lemma same_expr_refl a : same_expr a a.
Proof. split; reflexivity. Qed.

(** ** Merging *)
Section Merge.
  Context {K : Type} (eqb : K -> K -> bool).
  Hypothesis eqb_spec : forall a b, reflect (a = b) (eqb a b).
  Local Notation amap := (list (K * tree)).

  Lemma aget_maps (m : amap) k v : functional m -> (aget eqb k m = Some v <-> maps_to m k v).
  Proof.
    intros F. split; [apply (aget_In _ eqb_spec)|apply (In_aget _ eqb_spec); exact F].
  Qed.

  Lemma merge_into_some (small large m : amap) :
    merge_into eqb small large = Some m -> functional small -> functional large ->
    functional m /\
    (forall k, aget eqb k m = match aget eqb k large with
                              | Some w => Some w | None => aget eqb k small end) /\
    (forall k v w, aget eqb k small = Some v -> aget eqb k large = Some w -> t_key w = t_key v).
  Proof.
    revert large; induction small as [|[k0 v0] small IH]; intros large H Fs Fl; cbn in H.
    - injection H as <-. split; [exact Fl|]. split.
      + intros k. now destruct (aget eqb k large).
      + cbn. discriminate.
    - inversion Fs as [|? ? Hni Fs']; subst.
      destruct (aget eqb k0 large) as [w|] eqn:E.
      + destruct (key_eqb_spec (t_key w) (t_key v0)) as [Ek|]; [|discriminate].
        destruct (IH _ H Fs' Fl) as (F & L & A). split; [exact F|]. split.
        * intros k. rewrite L. destruct (aget eqb k large) eqn:E'; [reflexivity|].
          cbn. destruct (eqb_spec k k0) as [->|]; [congruence|reflexivity].
        * intros k v w' Hs Hl. cbn in Hs. destruct (eqb_spec k k0) as [->|]; [|eauto].
          injection Hs as <-. congruence.
      + assert (F' : functional (aset eqb k0 v0 large)) by (apply (aset_NoDup _ eqb_spec); exact Fl).
        destruct (IH _ H Fs' F') as (F & L & A). split; [exact F|]. split.
        * intros k. rewrite L. rewrite (aget_aset _ eqb_spec). cbn.
          destruct (eqb_spec k k0) as [->|]; [now rewrite E|reflexivity].
        * intros k v w' Hs Hl. cbn in Hs. destruct (eqb_spec k k0) as [->|N].
          -- congruence.
          -- apply (A k v w' Hs). rewrite (aget_aset _ eqb_spec).
             destruct (eqb_spec k k0); [contradiction|exact Hl].
  Qed.

  Lemma merge_into_total (small large : amap) :
    functional small ->
    (forall k v w, aget eqb k small = Some v -> aget eqb k large = Some w -> t_key w = t_key v) ->
    exists m, merge_into eqb small large = Some m.
  Proof.
    revert large; induction small as [|[k0 v0] small IH]; intros large Fs A; cbn.
    - eauto.
    - inversion Fs as [|? ? Hni Fs']; subst.
      assert (A' : forall k v w, aget eqb k small = Some v -> aget eqb k large = Some w ->
                                 t_key w = t_key v).
      { intros k v w Hs Hl. apply (A k v w); [|exact Hl]. cbn.
        destruct (eqb_spec k k0) as [->|]; [|exact Hs].
        exfalso. apply Hni. apply (aget_In _ eqb_spec) in Hs. apply in_map_iff.
        exists (k0, v). auto. }
      destruct (aget eqb k0 large) as [w|] eqn:E.
      + destruct (key_eqb_spec (t_key w) (t_key v0)) as [Ek|N]; [apply IH; auto|].
        exfalso. apply N. apply (A k0 v0 w); [|exact E]. cbn.
        now destruct (eqb_spec k0 k0).
      + apply IH; [exact Fs'|]. intros k v w Hs Hl. rewrite (aget_aset _ eqb_spec) in Hl.
        destruct (eqb_spec k k0) as [->|N]; [|eauto].
        exfalso. apply Hni. apply (aget_In _ eqb_spec) in Hs. apply in_map_iff.
        exists (k0, v). auto.
  Qed.

  Lemma merge_into_union (small large m : amap) :
    functional small -> functional large -> merge_into eqb small large = Some m ->
    union_of small large m /\ agree small large.
  Proof.
    intros Fs Fl H. destruct (merge_into_some _ _ _ H Fs Fl) as (F & L & A).
    repeat split; try exact F.
    - intros k v Hm. apply (aget_maps _ _ _ F) in Hm. rewrite L in Hm.
      destruct (aget eqb k large) as [w|] eqn:E.
      + injection Hm as ->. right. now apply (aget_maps _ _ _ Fl).
      + left. now apply (aget_maps _ _ _ Fs).
    - intros k v Hs. pose proof (proj2 (aget_maps _ k v Fs) Hs) as Hg.
      destruct (aget eqb k large) as [w|] eqn:E.
      + exists w. split; [apply (aget_maps _ _ _ F); rewrite L, E; reflexivity|].
        apply same_expr_key. eauto.
      + exists v. split; [apply (aget_maps _ _ _ F); rewrite L, E; exact Hg|apply same_expr_refl].
    - intros k v Hl. pose proof (proj2 (aget_maps _ k v Fl) Hl) as Hg.
      exists v. split; [apply (aget_maps _ _ _ F); rewrite L, Hg; reflexivity|apply same_expr_refl].
    - apply same_expr_key. symmetry. eapply A; apply aget_maps; eassumption.
    - apply same_expr_key. symmetry. eapply A; apply aget_maps; eassumption.
  Qed.

  Lemma merge_into_agree (small large : amap) :
    functional small -> functional large -> agree small large ->
    exists m, merge_into eqb small large = Some m.
  Proof.
    intros Fs Fl A. apply merge_into_total; [exact Fs|]. intros k v w Hs Hl.
    symmetry. apply same_expr_key. apply (A k); apply aget_maps; assumption.
  Qed.

  Lemma agree_sym (a b : amap) : agree a b -> agree b a.
  Proof. intros A k v w H G. apply same_expr_sym. eauto. Qed.
  Lemma union_sym (a b m : amap) : union_of a b m -> union_of b a m.
  Proof.
    intros (F & H1 & H2 & H3). split; [exact F|]. split; [|split; assumption].
    intros k v H. destruct (H1 k v H); auto.
  Qed.

  Lemma consistent_merge_iff (a b : amap) :
    functional a -> functional b ->
    ((exists m, consistent_merge eqb a b = Some m) <-> agree a b).
  Proof.
    intros Fa Fb. unfold consistent_merge. destruct (Nat.ltb _ _).
    - split.
      + intros [m H]. apply agree_sym. eapply merge_into_union; eassumption.
      + intros A. apply merge_into_agree; auto using agree_sym.
    - split.
      + intros [m H]. eapply merge_into_union; eassumption.
      + intros A. apply merge_into_agree; auto.
  Qed.

  Lemma consistent_merge_union (a b m : amap) :
    functional a -> functional b -> consistent_merge eqb a b = Some m -> union_of a b m.
  Proof.
    intros Fa Fb. unfold consistent_merge. destruct (Nat.ltb _ _); intros H.
    - apply union_sym. eapply merge_into_union; eassumption.
    - eapply merge_into_union; eassumption.
  Qed.

  Lemma union_same (a b m m' : amap) :
    union_of a b m -> union_of a b m' -> same_assignment m m'.
  Proof.
    intros (F & H1 & H2 & H3) (F' & H1' & H2' & H3').
    split; intros k v H; [destruct (H1 _ _ H)|destruct (H1' _ _ H)]; auto.
  Qed.

  Lemma consistent_merge_comm (a b : amap) :
    functional a -> functional b ->
    match consistent_merge eqb a b, consistent_merge eqb b a with
    | Some m, Some m' => same_assignment m m'
    | None, None => True
    | _, _ => False
    end.
  Proof.
    intros Fa Fb.
    destruct (consistent_merge eqb a b) as [m|] eqn:E, (consistent_merge eqb b a) as [m'|] eqn:E'.
    - eapply union_same; [eapply consistent_merge_union; [| |exact E]; assumption|].
      apply union_sym. eapply consistent_merge_union; [| |exact E']; assumption.
    - assert (A : agree b a) by (apply agree_sym; apply (consistent_merge_iff a b Fa Fb); eauto).
      apply (consistent_merge_iff b a Fb Fa) in A. destruct A; congruence.
    - assert (A : agree a b) by (apply agree_sym; apply (consistent_merge_iff b a Fb Fa); eauto).
      apply (consistent_merge_iff a b Fa Fb) in A. destruct A; congruence.
    - exact I.
  Qed.
End Merge.

(** ** Matching *)
Lemma instance_mono gen ex gen' ex' e p :
  (forall k v, maps_to gen k v -> exists w, maps_to gen' k w /\ same_expr w v) ->
  (forall k v, maps_to ex k v -> exists w, maps_to ex' k w /\ same_expr w v) ->
  instance gen ex e p -> instance gen' ex' e p.
Proof.
  intros Hg He H. induction H as [e s c v Hm Hs|s c s' c' k' v Hk Hm Hs|s c k s' c' k' Hk Hv Es Ec|].
  - destruct (Hg _ _ Hm) as (w & Hw & Sw). econstructor; [exact Hw|].
    eapply same_expr_trans; eassumption.
  - destruct (He _ _ Hm) as (w & Hw & Sw). eapply InstMasked; [exact Hk|exact Hw|].
    eapply same_expr_trans; eassumption.
  - apply InstSame; assumption.
  - apply InstPair; assumption.
Qed.

Lemma es_merge_some a b s :
  es_merge a b = Some s ->
  consistent_merge key_eqb (es_gen a) (es_gen b) = Some (es_gen s) /\
  consistent_merge cid_eqb (es_ex a) (es_ex b) = Some (es_ex s).
Proof.
  unfold es_merge. destruct (consistent_merge key_eqb _ _); [|discriminate].
  destruct (consistent_merge cid_eqb _ _); [|discriminate].
  intros H; injection H as <-. split; reflexivity.
Qed.

Lemma functional_single {K V} (k : K) (v : V) : functional [(k, v)].
Proof. constructor; [intros []|constructor]. Qed.
Lemma functional_nil {K V} : functional (@nil (K * V)).
Proof. constructor. Qed.

Lemma check_example_functional e p s :
  check_example e p = Some s -> functional (es_gen s) /\ functional (es_ex s).
Proof.
  revert p s; induction e as [se ce ke|se ce el IHl er IHr fe be];
    intros [sp cp kp|sp cp pl pr fp bp] s H; cbn in H.
  - destruct kp, ce as [ce|], ke;
      try match type of H with context [key_eqb ?a ?b] => destruct (key_eqb a b) end;
      try discriminate; injection H as <-;
      split; cbn; auto using @functional_single, @functional_nil.
  - discriminate.
  - destruct kp; try discriminate. injection H as <-.
    split; cbn; auto using @functional_single, @functional_nil.
  - destruct (check_example el pl) as [a|] eqn:Ea; [|discriminate].
    destruct (check_example er pr) as [b|] eqn:Eb; [|discriminate].
    destruct (IHl _ _ Ea) as [Ga Xa], (IHr _ _ Eb) as [Gb Xb].
    destruct (es_merge_some _ _ _ H) as [Hg Hx].
    split; [eapply (consistent_merge_union key_eqb key_eqb_spec); [| |exact Hg]; assumption|].
    eapply (consistent_merge_union cid_eqb cid_eqb_spec); [| |exact Hx]; assumption.
Qed.

Lemma check_example_sound e p s :
  check_example e p = Some s -> instance (es_gen s) (es_ex s) e p.
Proof.
  revert p s; induction e as [se ce ke|se ce el IHl er IHr fe be];
    intros [sp cp kp|sp cp pl pr fp bp] s H; cbn in H.
  - destruct kp, ce as [ce|], ke;
      try match type of H with context [key_eqb ?a ?b] => destruct (key_eqb_spec a b) as [E|] end;
      try discriminate; injection H as <-;
      try (eapply InstVariable; [left; reflexivity|apply same_expr_refl]);
      try (eapply InstMasked; [discriminate|left; reflexivity|apply same_expr_refl]);
      cbn in E; injection E as E1 E2; apply InstSame; try discriminate; auto.
  - discriminate.
  - destruct kp; try discriminate. injection H as <-.
    eapply InstVariable; [left; reflexivity|apply same_expr_refl].
  - destruct (check_example el pl) as [a|] eqn:Ea; [|discriminate].
    destruct (check_example er pr) as [b|] eqn:Eb; [|discriminate].
    destruct (check_example_functional _ _ _ Ea) as [Ga Xa].
    destruct (check_example_functional _ _ _ Eb) as [Gb Xb].
    destruct (es_merge_some _ _ _ H) as [Hg Hx].
    destruct (consistent_merge_union key_eqb key_eqb_spec _ _ _ Ga Gb Hg) as (_ & _ & G1 & G2).
    destruct (consistent_merge_union cid_eqb cid_eqb_spec _ _ _ Xa Xb Hx) as (_ & _ & X1 & X2).
    apply InstPair; [eapply instance_mono; [| |eapply IHl; exact Ea]; assumption|].
    eapply instance_mono; [| |eapply IHr; exact Eb]; assumption.
Qed.

(** Everything [s] says is also said by [(gen, ex)]. *)
Definition entailed (s : ex_subs) gen ex : Prop :=
  (forall k v, maps_to (es_gen s) k v -> exists w, maps_to gen k w /\ same_expr w v) /\
  (forall k v, maps_to (es_ex s) k v -> exists w, maps_to ex k w /\ same_expr w v).

Lemma functional_maps {K V} (m : list (K * V)) k v w :
  functional m -> maps_to m k v -> maps_to m k w -> v = w.
Proof.
  unfold functional, maps_to. induction m as [|[k0 v0] m IH]; cbn; [intros _ []|].
  intros F H G. inversion F as [|? ? N F']; subst.
  assert (X : forall u, In (k, u) m -> In k (map fst m))
    by (intros u Hu; apply in_map_iff; exists (k, u); auto).
  destruct H as [H|H], G as [G|G].
  - congruence.
  - injection H as -> ->. exfalso. eauto.
  - injection G as -> ->. exfalso. eauto.
  - auto.
Qed.

Lemma check_example_complete gen ex e p :
  functional gen -> functional ex -> instance gen ex e p ->
  exists s, check_example e p = Some s /\ entailed s gen ex.
Proof.
  intros Fg Fx H. induction H as [e s c v Hm Hs|s c s' c' k' v Hk Hm Hs|s c k s' c' k' Hk Hv Es Ec|s c l r fv bv s' c' l' r' fv' bv' H1 IH1 H2 IH2].
  - exists (ES [((Some s, c), e)] []). split; [destruct e; reflexivity|].
    split; [|intros ? ? []]. intros k w [E|[]]. injection E as <- <-. exists v. auto.
  - exists (ES [] [(c, TLeaf s' c' k')]). split.
    + cbn. destruct k'; [contradiction|reflexivity|reflexivity].
    + split; [intros ? ? []|]. intros k w [E|[]]. injection E as <- <-. exists v. auto.
  - subst s' c'. exists es_empty. split; [|split; intros ? ? []].
    cbn. destruct k'; [contradiction| |]; destruct c as [c|], k;
      try (specialize (Hv eq_refl); discriminate);
      match goal with |- context [key_eqb ?a ?b] => destruct (key_eqb_spec a b) as [|N] end;
      try reflexivity; exfalso; apply N; reflexivity.
  - destruct IH1 as (a & Ea & Ga & Xa), IH2 as (b & Eb & Gb & Xb).
    destruct (check_example_functional _ _ _ Ea) as [Fga Fxa].
    destruct (check_example_functional _ _ _ Eb) as [Fgb Fxb].
    assert (Ag : agree (es_gen a) (es_gen b)).
    { intros k v w Hv Hw. destruct (Ga _ _ Hv) as (v' & Hv' & Sv), (Gb _ _ Hw) as (w' & Hw' & Sw).
      rewrite (functional_maps _ _ _ _ Fg Hv' Hw') in Sv.
      eapply same_expr_trans; [apply same_expr_sym; exact Sv|exact Sw]. }
    assert (Ax : agree (es_ex a) (es_ex b)).
    { intros k v w Hv Hw. destruct (Xa _ _ Hv) as (v' & Hv' & Sv), (Xb _ _ Hw) as (w' & Hw' & Sw).
      rewrite (functional_maps _ _ _ _ Fx Hv' Hw') in Sv.
      eapply same_expr_trans; [apply same_expr_sym; exact Sv|exact Sw]. }
    apply (consistent_merge_iff key_eqb key_eqb_spec _ _ Fga Fgb) in Ag.
    apply (consistent_merge_iff cid_eqb cid_eqb_spec _ _ Fxa Fxb) in Ax.
    destruct Ag as [g Hg], Ax as [x Hx].
    exists (ES g x). split.
    + cbn. rewrite Ea, Eb. unfold es_merge. now rewrite Hg, Hx.
    + destruct (consistent_merge_union key_eqb key_eqb_spec _ _ _ Fga Fgb Hg) as (_ & G1 & _).
      destruct (consistent_merge_union cid_eqb cid_eqb_spec _ _ _ Fxa Fxb Hx) as (_ & X1 & _).
      split; cbn; intros k v Hm; [destruct (G1 _ _ Hm)|destruct (X1 _ _ Hm)]; auto.
Qed.

(** ** Substitution *)
Lemma subst_keys_replaced subs t :
  functional subs -> replaced subs t (subst_keys t subs).
Proof.
  intros F. induction t as [s c k|s c l IHl r IHr fv bv]; cbn.
  - destruct (aget key_eqb _ subs) as [u|] eqn:E.
    + apply ReplacedHere. now apply (aget_In _ key_eqb_spec).
    + apply ReplacedLeaf. now apply (aget_None _ key_eqb_spec).
  - destruct (aget key_eqb _ subs) as [u|] eqn:E.
    + apply ReplacedHere. now apply (aget_In _ key_eqb_spec).
    + apply ReplacedBelow; [now apply (aget_None _ key_eqb_spec)|assumption|assumption].
Qed.

Lemma maps_to_mapped (subs : list (key * tree)) k u : maps_to subs k u -> In k (map fst subs).
Proof. intros H. apply in_map_iff. exists (k, u). auto. Qed.

Lemma replaced_unique subs t u u' :
  functional subs -> replaced subs t u -> replaced subs t u' -> u = u'.
Proof.
  intros F H. revert u'. induction H as [t u H|s c k N|s c l r fv bv l' r' N H1 IH1 H2 IH2];
    intros u' G; inversion G as [t' v H'|s' c' k' N'|s' c' l0 r0 fv' bv' l1 r1 N' G1 G2]; subst.
  - eapply functional_maps; eassumption.
  - exfalso. apply N'. eapply maps_to_mapped. exact H.
  - exfalso. apply N'. eapply maps_to_mapped. exact H.
  - exfalso. apply N. eapply maps_to_mapped. exact H'.
  - reflexivity.
  - exfalso. apply N. eapply maps_to_mapped. exact H'.
  - f_equal; auto.
Qed.

Lemma subst_keys_identity subs t :
  (forall p, part_of p t -> ~ mapped subs p) -> subst_keys t subs = t.
Proof.
  induction t as [s c k|s c l IHl r IHr fv bv]; intros H; cbn.
  - assert (E : aget key_eqb (t_key (TLeaf s c k)) subs = None).
    { apply (aget_None _ key_eqb_spec). exact (H _ (PartSelf _)). }
    now rewrite E.
  - assert (E : aget key_eqb (t_key (TBranch s c l r fv bv)) subs = None).
    { apply (aget_None _ key_eqb_spec). exact (H _ (PartSelf _)). }
    rewrite E, IHl, IHr; [reflexivity| |].
    + intros p Hp. apply H. now apply PartRight.
    + intros p Hp. apply H. now apply PartLeft.
Qed.

(** ** Masks *)
Lemma ml_get_cons m ml c :
  ml_get (m :: ml) c = match aget cid_eqb c m with Some t => Some t | None => ml_get ml c end.
Proof. reflexivity. Qed.

Lemma ml_get_spec (ml : mask_list) c t :
  ml_get ml c = Some t <->
  exists outer m inner, ml = outer ++ m :: inner /\ aget cid_eqb c m = Some t /\
                        (forall m', In m' outer -> aget cid_eqb c m' = None).
Proof.
  induction ml as [|m ml IH]; cbn.
  - split; [discriminate|]. intros (o & m & i & E & _). destruct o; discriminate.
  - destruct (aget cid_eqb c m) as [u|] eqn:E.
    + split.
      * intros H; injection H as ->. exists [], m, ml. split; [reflexivity|]. split; [exact E|intros ? []].
      * intros ([|o os] & m1 & i & Eq & G & N); cbn in Eq; injection Eq as -> ->; [congruence|].
        rewrite (N o (or_introl eq_refl)) in E. discriminate.
    + rewrite IH. split.
      * intros (o & m1 & i & -> & G & N). exists (m :: o), m1, i. split; [reflexivity|].
        split; [exact G|]. intros m' [<-|H]; auto.
      * intros ([|o os] & m1 & i & Eq & G & N); cbn in Eq; injection Eq as -> ->; [congruence|].
        exists os, m1, i. split; [reflexivity|]. split; [exact G|]. intros m' H. apply N. now right.
Qed.

Lemma keymap_eqb_same {K} (eqb : K -> K -> bool) (eqb_spec : forall a b, reflect (a = b) (eqb a b))
    (a b : list (K * tree)) :
  functional a -> functional b -> (keymap_eqb eqb a b = true <-> same_assignment a b).
Proof.
  intros Fa Fb. unfold keymap_eqb. rewrite andb_true_iff, Nat.eqb_eq, forallb_forall.
  split.
  - intros [Hl H].
    assert (H1 : forall k v, maps_to a k v -> exists w, maps_to b k w /\ same_expr w v).
    { intros k v Hm. specialize (H _ Hm). cbn in H.
      destruct (aget eqb k b) as [w|] eqn:E; [|discriminate].
      exists w. split; [now apply (aget_In _ eqb_spec)|]. apply same_expr_key.
      destruct (key_eqb_spec (t_key v) (t_key w)); [auto|discriminate]. }
    split; [exact H1|].
    assert (I : incl (map fst a) (map fst b)).
    { intros k Hk. apply in_map_iff in Hk. destruct Hk as ([k' v] & <- & Hin). cbn.
      destruct (H1 _ _ Hin) as (w & Hw & _). apply in_map_iff. exists (k', w). auto. }
    assert (I' : incl (map fst b) (map fst a)).
    { apply NoDup_length_incl; [exact Fa| |exact I]. rewrite !map_length. lia. }
    intros k w Hw. assert (Hk : In k (map fst a)).
    { apply I'. apply in_map_iff. exists (k, w). auto. }
    apply in_map_iff in Hk. destruct Hk as ([k' v] & E & Hin). cbn in E. subst k'.
    exists v. split; [exact Hin|]. destruct (H1 _ _ Hin) as (w' & Hw' & Sw).
    rewrite (functional_maps _ _ _ _ Fb Hw Hw'). now apply same_expr_sym.
  - intros [H1 H2]. split.
    + assert (I : incl (map fst a) (map fst b)).
      { intros k Hk. apply in_map_iff in Hk. destruct Hk as ([k' v] & <- & Hin). cbn.
        destruct (H1 _ _ Hin) as (w & Hw & _). apply in_map_iff. exists (k', w). auto. }
      assert (I' : incl (map fst b) (map fst a)).
      { intros k Hk. apply in_map_iff in Hk. destruct Hk as ([k' v] & <- & Hin). cbn.
        destruct (H2 _ _ Hin) as (w & Hw & _). apply in_map_iff. exists (k', w). auto. }
      apply (NoDup_incl_length Fa) in I. apply (NoDup_incl_length Fb) in I'.
      rewrite !map_length in *. lia.
    + intros [k v] Hin. destruct (H1 _ _ Hin) as (w & Hw & Sw).
      rewrite (In_aget _ eqb_spec k w b Fb Hw).
      destruct (key_eqb_spec (t_key v) (t_key w)) as [|N]; [reflexivity|].
      exfalso. apply N. apply same_expr_key. now apply same_expr_sym.
Qed.

(** Pushing a layer is refused exactly when an equal layer is already there. *)
Lemma ml_push_spec (ml : mask_list) m :
  functional m -> (forall l, In l ml -> functional l) ->
  ml_push ml m = None /\ (exists l, In l ml /\ same_assignment l m)
  \/ ml_push ml m = Some (m :: ml) /\ ~ (exists l, In l ml /\ same_assignment l m).
Proof.
  intros Fm Fl. unfold ml_push, ml_contains.
  destruct (existsb (fun h => keymap_eqb cid_eqb h m) ml) eqn:E.
  - left. split; [reflexivity|]. apply existsb_exists in E. destruct E as (l & Hl & H).
    exists l. split; [exact Hl|]. apply (keymap_eqb_same _ cid_eqb_spec); auto.
  - right. split; [reflexivity|]. intros (l & Hl & S).
    assert (X : existsb (fun h => keymap_eqb cid_eqb h m) ml = true).
    { apply existsb_exists. exists l. split; [exact Hl|].
      apply (keymap_eqb_same _ cid_eqb_spec); auto. }
    congruence.
Qed.

Lemma ml_push_tail (ml : mask_list) m ml' :
  ml <> [] -> ml_push ml m = Some ml' -> ml_tail ml' = Some ml.
Proof.
  unfold ml_push. destruct ml as [|l ls]; [contradiction|]. intros _.
  destruct (ml_contains _ _); [discriminate|]. intros H; injection H as <-. reflexivity.
Qed.

(** ** Variables of a pair *)
Lemma first_app_left v b (p : list (key * bool)) q :
  In v (map fst p) ->
  ((exists x y, p ++ q = x ++ (v, b) :: y /\ ~ In v (map fst x)) <->
   (exists x y, p = x ++ (v, b) :: y /\ ~ In v (map fst x))).
Proof.
  intros Hin. split.
  - intros (x & y & E & N). revert x E N; induction p as [|[k c] p IH]; intros x E N; [destruct Hin|].
    destruct x as [|[k' c'] x]; cbn in E; injection E as -> -> E'.
    + exists [], p. auto.
    + cbn in N. cbn in Hin. destruct Hin as [->|Hin]; [exfalso; apply N; now left|].
      destruct (IH Hin x E') as (x1 & y1 & -> & N1); [intros H; apply N; now right|].
      exists ((k', c') :: x1), y1. split; [reflexivity|]. cbn. intros [H|H]; [apply N; now left|auto].
  - intros (x & y & -> & N). exists x, (y ++ q). rewrite <- app_assoc. auto.
Qed.

Lemma first_app_right v b (p : list (key * bool)) q :
  ~ In v (map fst p) ->
  ((exists x y, p ++ q = x ++ (v, b) :: y /\ ~ In v (map fst x)) <->
   (exists x y, q = x ++ (v, b) :: y /\ ~ In v (map fst x))).
Proof.
  intros Hni. split.
  - intros (x & y & E & N). revert x E N; induction p as [|[k c] p IH]; intros x E N; [eauto|].
    destruct x as [|[k' c'] x]; cbn in E; injection E as -> -> E'.
    + exfalso. apply Hni. now left.
    + apply (IH (fun H => Hni (or_intror H)) x E'). intros H; apply N; now right.
  - intros (x & y & -> & N). exists (p ++ x), y. rewrite <- app_assoc. split; [reflexivity|].
    rewrite map_app, in_app_iff. tauto.
Qed.

Lemma key_dec (a b : key) : {a = b} + {a <> b}.
Proof. destruct (key_eqb_spec a b); [left|right]; assumption. Qed.

Lemma first_total v (p : list (key * bool)) :
  In v (map fst p) -> exists b x y, p = x ++ (v, b) :: y /\ ~ In v (map fst x).
Proof.
  induction p as [|[k c] p IH]; cbn; [intros []|]. intros H.
  destruct (key_dec k v) as [->|N].
  - exists c, [], p. auto.
  - destruct H as [H|H]; [contradiction|]. destruct (IH H) as (b & x & y & -> & N').
    exists b, ((k, c) :: x), y. split; [reflexivity|]. cbn. intros [?|?]; auto.
Qed.

Lemma first_in v b (p : list (key * bool)) :
  (exists x y, p = x ++ (v, b) :: y /\ ~ In v (map fst x)) -> In v (map fst p).
Proof.
  intros (x & y & -> & _). rewrite map_app, in_app_iff. right. now left.
Qed.

Lemma first_exclusive v (p : list (key * bool)) :
  (exists x y, p = x ++ (v, true) :: y /\ ~ In v (map fst x)) ->
  (exists x y, p = x ++ (v, false) :: y /\ ~ In v (map fst x)) -> False.
Proof.
  intros (x & y & -> & N) (x' & y' & E & N').
  revert x' E N'; induction x as [|[k c] x IH]; intros x' E N'.
  - destruct x' as [|[k' c'] x']; cbn in E; [discriminate|]. injection E as <- <- _.
    apply N'. now left.
  - destruct x' as [|[k' c'] x']; cbn in E; injection E as -> -> E'.
    + apply N. now left.
    + apply (IH (fun H => N (or_intror H)) x' E'). intros H. apply N'. now right.
Qed.

Definition is_quantifier_leaf (t : tree) : bool :=
  match t with TLeaf _ _ LQuantifier => true | _ => false end.

Lemma occurrences_branch s c l r fv bv :
  occurrences (TBranch s c l r fv bv) =
  if is_leaf_variable l && is_quantifier_leaf r then [(t_key l, true)]
  else occurrences l ++ occurrences r.
Proof.
  destruct l as [sl cl []|]; cbn; try reflexivity.
  destruct r as [sr cr []|]; reflexivity.
Qed.

Lemma branch_fv s c l r : recorded_free (branch s c l r) = fst (pair_vars l r).
Proof. unfold branch. now destruct (pair_vars l r). Qed.
Lemma branch_bv s c l r : recorded_bound (branch s c l r) = snd (pair_vars l r).
Proof. unfold branch. now destruct (pair_vars l r). Qed.
Lemma branch_occ s c l r :
  occurrences (branch s c l r) =
  if is_leaf_variable l && is_quantifier_leaf r then [(t_key l, true)]
  else occurrences l ++ occurrences r.
Proof. unfold branch. destruct (pair_vars l r). apply occurrences_branch. Qed.

Lemma right_vars_recorded r fv bv q :
  right_vars r = (fv, bv, q) ->
  (forall v, In v fv <-> In v (recorded_free r)) /\
  (forall v, In v bv <-> In v (recorded_bound r)) /\ q = is_quantifier_leaf r.
Proof.
  destruct r as [s c []|s c l r f b]; cbn; intros H; injection H as <- <- <-;
    refine (conj _ (conj _ eq_refl)); intros v; cbn; try tauto;
    rewrite (sextend_In _ key_eqb_spec); cbn; tauto.
Qed.

(** Whether [v] occurs at all. *)
Lemma occ_dec v t : {In v (map fst (occurrences t))} + {~ In v (map fst (occurrences t))}.
Proof. apply in_dec. exact key_dec. Qed.

Lemma assembled_vars t :
  assembled t ->
  (forall v, In v (recorded_free t) <-> occurs_free v t) /\
  (forall v, occurs_bound v t -> In v (recorded_bound t)) /\
  (forall v, In v (recorded_bound t) -> In v (map fst (occurrences t))) /\
  (no_capture t -> forall v, In v (recorded_bound t) -> occurs_bound v t).
Proof.
  unfold occurs_free, occurs_bound, first_occurrence.
  induction 1 as [s c k|s c l r Al IHl Ar IHr].
  - split; [|split; [|split]].
    + intros v. destruct k; cbn.
      * split.
        -- intros [<-|[]]. exists [], []. auto.
        -- intros ([|? [|]] & y & E & N); cbn in E; try discriminate.
           injection E as -> _. now left.
      * split; [intros []|]. intros ([|? x] & y & E & N); discriminate.
      * split; [intros []|]. intros ([|? x] & y & E & N); discriminate.
    + intros v (x & y & E & N). destruct k; cbn in E; destruct x as [|? [|]]; discriminate.
    + intros v [].
    + intros _ v [].
  - destruct IHl as (Fl & Bl & Ol & Nl), IHr as (Fr & Br & Or & Nr).
    assert (NC : no_capture (branch s c l r) ->
                 no_capture l /\ no_capture r /\
                 match l with
                 | TLeaf s c LVariable => ~ occurs_bound (Some s, c) r
                 | _ => True
                 end) by (unfold branch; destruct (pair_vars l r); exact (fun x => x)).
    rewrite branch_fv, branch_bv, branch_occ.
    unfold pair_vars. destruct (right_vars r) as [[fv bv] q] eqn:E.
    destruct (right_vars_recorded _ _ _ _ E) as (Hf & Hb & ->). clear E.
    destruct l as [sl cl []|sl cl ll lr lfv lbv].
    + (* left: a variable *)
      cbn [is_leaf_variable andb]. destruct (is_quantifier_leaf r) eqn:Q.
      * destruct r as [sr cr []|]; try discriminate. cbn in *.
        split; [|split; [|split]].
        -- intros v. rewrite Hf. split; [intros []|].
           intros ([|? [|]] & y & E & _); discriminate.
        -- intros v ([|? [|]] & y & E & _); try discriminate. injection E as <- _.
           rewrite (sadd_In _ key_eqb_spec). now left.
        -- intros v. rewrite (sadd_In _ key_eqb_spec), Hb. cbn. intuition.
        -- intros _ v. rewrite (sadd_In _ key_eqb_spec), Hb. intros [->|[]].
           exists [], []. auto.
      * cbn [fst snd occurrences app]. set (k := (Some sl, cl)).
        assert (F1 : forall b v, (exists x y, (k, false) :: occurrences r = x ++ (v, b) :: y /\ ~ In v (map fst x))
                     <-> (v = k /\ b = false) \/ (v <> k /\ exists x y, occurrences r = x ++ (v, b) :: y /\ ~ In v (map fst x))).
        { intros b v. destruct (key_dec v k) as [->|Nk].
          - rewrite (first_app_left k b [(k, false)] (occurrences r)) by (now left). split.
            + intros ([|? [|]] & y & E & _); try discriminate. injection E as <- _. auto.
            + intros [[_ ->]|[N _]]; [|contradiction]. exists [], []. auto.
          - rewrite (first_app_right v b [(k, false)] (occurrences r)); [intuition|].
            cbn. intros [H|[]]. auto. }
        split; [|split; [|split]].
        -- intros v. rewrite F1, (sadd_In _ key_eqb_spec), Hf, Fr. unfold t_key; cbn. fold k.
           destruct (key_dec v k) as [->|Nk]; intuition.
        -- intros v H. apply F1 in H. destruct H as [[_ H]|[_ H]]; [discriminate|].
           apply Hb. auto.
        -- intros v H. apply Hb in H. cbn. right. auto.
        -- intros N v H. apply F1. right. destruct (NC N) as (_ & N2 & N3).
           apply Hb in H. pose proof (Nr N2 v H) as G. split; [|exact G].
           intros ->. exact (N3 G).
    + (* left: a constant *)
      cbn [is_leaf_variable andb fst snd occurrences app].
      split; [|split; [|split]].
      * intros v. rewrite Hf. apply Fr.
      * intros v H. apply Hb. auto.
      * intros v H. apply Or. now apply Hb.
      * intros N v H. apply Nr; [now destruct (NC N) as (_ & ? & _)|now apply Hb].
    + cbn [is_leaf_variable andb fst snd occurrences app].
      split; [|split; [|split]].
      * intros v. rewrite Hf. apply Fr.
      * intros v H. apply Hb. auto.
      * intros v H. apply Or. now apply Hb.
      * intros N v H. apply Nr; [now destruct (NC N) as (_ & ? & _)|now apply Hb].
    + (* left: a pair *)
      cbn [is_leaf_variable andb fst snd].
      set (lt := TBranch sl cl ll lr lfv lbv) in *.
      change (recorded_free lt) with lfv in *. change (recorded_bound lt) with lbv in *.
      assert (Filt : forall v (a b : list key), In v (filter (fun v => negb (smem key_eqb v b)) a)
                     <-> In v a /\ ~ In v b).
      { intros v a b. rewrite filter_In, negb_true_iff, (smem_false _ key_eqb_spec). tauto. }
      assert (S1 : forall v b, In v (map fst (occurrences lt)) ->
         ((exists x y, occurrences lt ++ occurrences r = x ++ (v, b) :: y /\ ~ In v (map fst x)) <->
          (exists x y, occurrences lt = x ++ (v, b) :: y /\ ~ In v (map fst x))))
        by (intros; apply first_app_left; assumption).
      assert (S2 : forall v b, ~ In v (map fst (occurrences lt)) ->
         ((exists x y, occurrences lt ++ occurrences r = x ++ (v, b) :: y /\ ~ In v (map fst x)) <->
          (exists x y, occurrences r = x ++ (v, b) :: y /\ ~ In v (map fst x))))
        by (intros; apply first_app_right; assumption).
      assert (Lf : forall v, In v lfv -> In v (map fst (occurrences lt)))
        by (intros v H; apply Fl in H; eapply first_in; exact H).
      assert (Lb : forall v, In v lbv -> In v (map fst (occurrences lt))) by exact Ol.
      split; [|split; [|split]].
      * intros v. rewrite (sextend_In _ key_eqb_spec), Filt, Hf.
        destruct (occ_dec v lt) as [D|D].
        -- rewrite (S1 v false D), <- Fl. split; [|tauto]. intros [[H Nb]|H]; [|exact H].
           destruct (first_total v _ D) as (b & Hfirst). destruct b.
           ++ exfalso. apply Nb. apply Bl. exact Hfirst.
           ++ apply Fl. exact Hfirst.
        -- rewrite (S2 v false D), <- Fr. split; [intros [[H _]|H]; [exact H|exfalso; auto]|].
           intros H. left. split; [exact H|auto].
      * intros v H. rewrite (sextend_In _ key_eqb_spec), Filt, Hb.
        destruct (occ_dec v lt) as [D|D].
        -- apply (S1 v true D) in H. right. auto.
        -- apply (S2 v true D) in H. left. split; [auto|]. intros G. auto.
      * intros v. rewrite (sextend_In _ key_eqb_spec), Filt, Hb, map_app, in_app_iff. intuition.
      * intros N v. rewrite (sextend_In _ key_eqb_spec), Filt, Hb.
        destruct (NC N) as (N1 & N2 & _).
        destruct (occ_dec v lt) as [D|D].
        -- rewrite (S1 v true D). intros [[H Nf]|H]; [|auto].
           destruct (first_total v _ D) as (b & Hfirst). destruct b; [exact Hfirst|].
           exfalso. apply Nf. apply Fl. exact Hfirst.
        -- rewrite (S2 v true D). intros [[H _]|H]; [auto|exfalso; auto].
Qed.

Lemma assembled_bound t :
  assembled t -> no_capture t -> forall v, In v (recorded_bound t) <-> occurs_bound v t.
Proof.
  intros A N v. destruct (assembled_vars t A) as (_ & H & _ & G). split; auto.
Qed.

Lemma assembled_bound_bracket t :
  assembled t -> forall v,
    (occurs_bound v t -> In v (recorded_bound t)) /\
    (In v (recorded_bound t) -> exists b, In (v, b) (occurrences t)).
Proof.
  intros A v. destruct (assembled_vars t A) as (_ & H & G & _). split; [auto|].
  intros Hin. apply G in Hin. apply in_map_iff in Hin. destruct Hin as ([k b] & <- & Hin). eauto.
Qed.

Lemma subst_keys_iff subs t u :
  functional subs -> (subst_keys t subs = u <-> replaced subs t u).
Proof.
  intros F. pose proof (subst_keys_replaced subs t F) as R. split; [intros <-; exact R|].
  intros H. eapply replaced_unique; eassumption.
Qed.

Lemma check_example_correct e p s :
  check_example e p = Some s ->
  functional (es_gen s) /\ functional (es_ex s) /\ instance (es_gen s) (es_ex s) e p.
Proof.
  intros H. destruct (check_example_functional _ _ _ H). auto using check_example_sound.
Qed.
