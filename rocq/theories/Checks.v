(** Whether one symbol reduces to another: what is answered. *)
From Verif Require Import Nester NesterFacts CommandFacts Grouping.
From Verif Require Import Start Snapshot Search Context LexerSpec LexerFacts NesterSpec StoreSpec StoreInv NameSpec Names StoreFacts
  MapFacts AstSpec AstFacts RangeFacts History Steps SearchKeeps SearchCaches Questions Existence Wide Earned Repeat CacheLife
  Quiet Displays Matches Implications Asking Shapes Unruled Spelled Answers Replies Clean Keyed Flat.
From Coq Require Import String List PeanoNat Bool Permutation.
Import ListNotations.
Local Open Scope zia_scope.

(** ** Specification *)
Section Spec.
  Variable s : snapshot.
  (** In one step or more. *)
  Inductive reaches : nat -> nat -> Prop :=
  | ReachesNext a b : reduces s a b -> reaches a b
  | ReachesOn a q b : reduces s a q -> reaches q b -> reaches a b.
  (** What is said at once about whether [a] reduces to [b]. *)
  Inductive settles : nat -> nat -> bool -> Prop :=
  | SettlesYes a b : reaches a b -> settles a b true
  | SettlesSame a : settles a a false
  | SettlesBack a b : reaches b a -> settles a b false.
  Definition unsettled (a b : nat) : Prop := forall x, ~ settles a b x.
  (** The next concept, if there is one. *)
  Definition stepped (a a' : nat) : Prop := reduces s a a' \/ a' = a /\ forall q, ~ reduces s a q.
  (** A composition with variables. *)
  Definition pattern (p : nat) : Prop :=
    exists c l r v fv bv red, lookup s p = Some c /\ c_spec c = Abstract (Comp l r (v :: fv) bv) red.
  (** [k] occurs in the composition [p], at any depth. *)
  Inductive mentions : nat -> nat -> Prop :=
  | MentionsLeft p x y : composed s p x y -> mentions p x
  | MentionsRight p x y : composed s p x y -> mentions p y
  | MentionsInLeft p x y k : composed s p x y -> mentions x k -> mentions p k
  | MentionsInRight p x y k : composed s p x y -> mentions y k -> mentions p k.
  (** What comes of asking whether one concept reduces to another: yes or no, or the question stays a question. *)
  Inductive outcome := Says (x : bool) | Stays (a b : nat).
  (** If nothing is said at once then both are reduced by one step and the same is asked again.  If that is not
      possible, and no rule with variables mentions the two or `->`, the question stays. *)
  Inductive decided : nat -> nat -> outcome -> Prop :=
  | DecidedNow a b x : settles a b x -> decided a b (Says x)
  | DecidedLater a b a' b' y : unsettled a b -> stepped a a' -> stepped b b' -> reduces s a a' \/ reduces s b b' ->
      decided a' b' y -> decided a b y
  | DecidedNever a b : unsettled a b -> (forall q, ~ reduces s a q) -> (forall q, ~ reduces s b q) ->
      (forall o k p, built_in s o CReduction -> In k [o; a; b] -> mentions p k -> ~ pattern p) -> decided a b (Stays a b).
  (** No rule with variables is about the pair of [o] and [b]. *)
  Definition unmatched (o b : nat) : Prop :=
    forall p x y, composed s p x y -> x = o \/ y = b -> pattern p -> elementary s x /\ elementary s y.
  Definition uncomposed (o b : nat) : Prop := forall p, ~ composed s p o b.
End Spec.

(** ** Texts *)
Definition question_words (w v : text) : text := w ++ c_space :: (txt "->" ++ c_space :: v).
Definition question_text (w v x : text) : Prop :=
  x = w ++ c_space :: (txt "->" ++ c_space :: v) \/ x = w ++ c_space :: parenthesise (txt "->" ++ c_space :: v).
Lemma word_split w x w' x' : word w -> word w' -> w ++ c_space :: x = w' ++ c_space :: x' -> w = w' /\ x = x'.
Proof.
  intros [_ W] [_ W']. revert w' W'. induction w as [|c w IH]; intros [|c' w'] W' E; cbn in E.
  - injection E as E. auto.
  - injection E as E _. specialize (W' c' (or_introl eq_refl)). rewrite <- E in W'. discriminate W'.
  - injection E as E _. specialize (W c (or_introl eq_refl)). rewrite E in W. discriminate W.
  - injection E as <- E. destruct (IH (fun c J => W c (or_intror J)) w' (fun c J => W' c (or_intror J)) E) as [-> ->]. auto.
Qed.
Lemma word_unspaced w x y : word w -> w <> x ++ c_space :: y.
Proof. intros [_ W] ->. specialize (W c_space). rewrite in_app_iff in W. discriminate (W (or_intror (or_introl eq_refl))). Qed.
Lemma arrow_word : word (txt "->").
Proof. split; [discriminate|]. intros c [<-|[<-|[]]]; reflexivity. Qed.
Lemma assoc_word : word (txt "assoc").
Proof. split; [discriminate|]. intros c J. repeat (destruct J as [<-|J]; [reflexivity|]). destruct J. Qed.
Lemma question_one w v w' v' x : word w -> word v -> word w' -> word v' -> question_text w v x -> question_text w' v' x -> w = w' /\ v = v'.
Proof.
  intros Ww Wv Ww' Wv' H H'.
  assert (O : forall u u', parenthesise (txt "->" ++ c_space :: u) = txt "->" ++ c_space :: u' -> False) by (intros; discriminate).
  destruct H as [->| ->], H' as [E|E]; apply (word_split _ _ _ _ Ww Ww') in E; destruct E as [-> E]; split; try reflexivity.
  - apply (word_split _ _ _ _ arrow_word arrow_word) in E. apply E.
  - symmetry in E. destruct (O _ _ E).
  - destruct (O _ _ E).
  - unfold parenthesise in E. injection E as E. apply app_inj_tail in E. apply E.
Qed.
Lemma question_pair w v x o b : word w -> word o -> word b -> question_text w v x -> x <> o ++ c_space :: b.
Proof.
  intros Ww Wo Wb [->| ->] E; apply (word_split _ _ _ _ Ww Wo) in E; destruct E as [_ <-].
  - exact (word_unspaced _ _ _ Wb eq_refl).
  - destruct Wb as [_ Wb]. discriminate (Wb c_open (or_introl eq_refl)).
Qed.

Section Chains.
  Variable s : snapshot.
  Lemma reduces_one a b b' : reduces s a b -> reduces s a b' -> b = b'.
  Proof. intros (c & m & L & S) (c' & m' & L' & S'). congruence. Qed.
  Lemma reaches_trans a b c : reaches s a b -> reaches s b c -> reaches s a c.
  Proof. induction 1 as [a b R|a q b R _ IH]; intros H; [exact (ReachesOn s a b c R H)|exact (ReachesOn s a q c R (IH H))]. Qed.
  Lemma reaches_first a q b : reduces s a q -> reaches s a b -> q = b \/ reaches s q b.
  Proof. intros R H. destruct H as [a b R'|a q' b R' H]; rewrite (reduces_one _ _ _ R R'); auto. Qed.
  Lemma reaches_some a b : reaches s a b -> exists q, reduces s a q.
  Proof. destruct 1; eauto. Qed.
  Lemma ends_acyclic k z v : ends s k z v -> ~ reaches s k k.
  Proof.
    induction 1 as [z w _ N|z cc w (c & L & S) _|k w q z v _ R _ IH]; intros H.
    - destruct (reaches_some _ _ H) as (q & R). exact (N _ R).
    - destruct (reaches_some _ _ H) as (q & c' & m & L' & S'). congruence.
    - apply IH. destruct (reaches_first _ _ _ R H) as [->|H']; [exact H|exact (reaches_trans _ _ _ H' (ReachesNext s _ _ R))].
  Qed.
  Lemma settles_one a b z v x y : ends s a z v -> settles s a b x -> settles s a b y -> x = y.
  Proof.
    intros En H H'. pose proof (ends_acyclic _ _ _ En) as C.
    inversion H; inversion H'; subst; try reflexivity; exfalso; try (apply C; assumption);
      apply C; eapply reaches_trans; eassumption.
  Qed.
  Lemma stepped_one a b b' : stepped s a b -> stepped s a b' -> b = b'.
  Proof.
    intros [R|[-> N]] [R'|[-> N']]; [exact (reduces_one _ _ _ R R')|destruct (N' _ R)|destruct (N _ R')|reflexivity].
  Qed.
End Chains.

(** ** Reading the question *)
Definition question_of (w v : text) : text := spelled (Both (Word w) (Both (Word (txt "->")) (Word v))).
Lemma leaf_known cfg fuel w k kd c r c1 : fair cfg -> c_delta c = delta_default -> means (c_snap c) w k -> kind_of_symbol cfg fuel c w = Ok kd ->
  ast_from_nested_syntax cfg fuel (from_concept_kind kd w) c = Ok (r, c1) ->
  exists lk, r = Val (TLeaf w (Some (Committed k)) lk) /\ lk <> LVariable /\ c1 = c.
Proof.
  intros F D (W & Nu & Fu & Un) Kd E. pose proof (kind_truthful cfg (c_snap c) F fuel c _ _ eq_refl D Kd) as T.
  unfold from_concept_kind in E. cbn [ast_from_nested_syntax] in E. destruct kd as [id cc|id| |]; cbn [truthful] in T.
  - destruct T as (_ & x & -> & Fx & _). rewrite (Un _ Fx) in E. unfold ast_from_syntax_leaf in E.
    unfold cbind, cret in E. cbn in E. injection E as <- <-. eexists. split; [reflexivity|]. split; [destruct cc; discriminate|reflexivity].
  - destruct T as (_ & x & -> & Fx & _). rewrite (Un _ Fx) in E. unfold ast_from_syntax_leaf in E.
    unfold cbind, cret in E. cbn in E. injection E as <- <-. eexists. split; [reflexivity|]. split; [discriminate|reflexivity].
  - exfalso. exact (proj2 T _ Fu).
  - exfalso. exact (Nu T).
Qed.
(** A list of words without brackets. *)
Definition word_leaf (p : text * nat) (t : tree) : Prop := exists lk, t = TLeaf (fst p) (Some (Committed (snd p))) lk /\ lk <> LVariable.
Lemma flat_leaves cfg fuel ws ks kinds c r c' : fair cfg -> c_delta c = delta_default -> Forall2 (means (c_snap c)) ws ks ->
  Forall2 (fun w k => kind_of_symbol cfg fuel c w = Ok k) ws kinds ->
  syntax_list_for_nested_syntax cfg fuel (NParent (map (fun '(w, k) => from_concept_kind k w) (combine ws kinds)) []) c = Ok (r, c') ->
  c' = c /\ exists ts, r = Val ts /\ Forall2 word_leaf (combine ws ks) ts.
Proof.
  intros F D M. cbn [syntax_list_for_nested_syntax]. revert kinds r c'.
  induction M as [|w k ws ks Mw _ IH]; intros kinds r c' K E; inversion K as [|? kd ? kds Kw Ks]; subst.
  - injection E as <- <-. split; [reflexivity|]. exists []. split; [reflexivity|constructor].
  - cbn [combine map] in E. apply bind_back in E. destruct E as (t & c1 & E1 & E).
    destruct (leaf_known _ _ _ _ _ _ _ _ F D Mw Kw E1) as (lk & -> & Nv & ->).
    apply bind_back in E. destruct E as (ts & c1 & E2 & E). destruct (IH _ _ _ Ks E2) as (-> & ts' & -> & W).
    injection E as <- <-. split; [reflexivity|]. eexists. split; [reflexivity|]. constructor; [exists lk; auto|exact W].
Qed.
Lemma question_read cfg fuel w o v a ko b c r c1 : fair cfg -> c_delta c = delta_default ->
  means (c_snap c) w a -> means (c_snap c) o ko -> means (c_snap c) v b ->
  ast_from_expression cfg fuel (spelled (Both (Word w) (Both (Word o) (Word v)))) c = Ok (r, c1) ->
  exists k1 k2 k3 x, k2 <> LVariable /\
    ast_from_pair cfg fuel (TLeaf o (Some (Committed ko)) k2) (TLeaf v (Some (Committed b)) k3) c = Ok (x, c1) /\
    r = match x with Val t => Val (new_pair (TLeaf w (Some (Committed a)) k1) t) | Fail e => Fail e end.
Proof.
  intros F D Mw Mo Mv E. unfold ast_from_expression, c_lex, c_nest in E.
  set (p := Both (Word w) (Both (Word o) (Word v))) in *.
  assert (H : proper p).
  { intros y [<-|[<-|[<-|[]]]]; [apply Mw|apply Mo|apply Mv]. }
  apply bind_back in E. destruct E as (ls & c2 & E1 & E).
  apply lift_clean in E1; [|apply clean_lex; intros t; apply clean_kind, D].
  destruct E1 as (-> & ls' & -> & L).
  pose proof (tokenisation_unique_lemma _ _ _ (lex_tokenisation_lemma _ _ _ L) (spelled_tokenisation p H)) as V.
  assert (C : cats_ok (kind_of_symbol cfg fuel c) ls') by (intros l k; apply (lex_categories_lemma _ _ _ l k L)).
  apply bind_back in E. destruct E as (n & c2 & E2 & E).
  apply map_eq_app in V. destruct V as (la & l2 & -> & Va & V). apply map_eq_cons in V. destruct V as (y & lb & -> & Vy & Vb).
  destruct (items_read (kind_of_symbol cfg fuel c) (Word w) la) with (2 := Va) as (ia & Ia & Ta); [intros l k J; apply C, in_or_app; auto|].
  destruct (items_read (kind_of_symbol cfg fuel c) (Both (Word o) (Word v)) lb) with (2 := Vb) as (ib & Ib & Tb);
    [intros l k J; apply C, in_or_app; right; right; exact J|].
  assert (Oy : tok_of y = []) by (unfold tok_of in *; destruct (lx_cat y); try discriminate Vy; reflexivity).
  assert (WB : well_bracketed (toks (la ++ y :: lb)) [ia; ib]).
  { split; [discriminate|]. split; [exact (nonempty_groups_app [ia] [ib] (item_nonempty _ _ _ Ia) (item_nonempty _ _ _ Ib))|].
    rewrite toks_app, toks_cons, Oy, Ta, Tb. cbn. rewrite app_nil_r. reflexivity. }
  unfold clift in E2. rewrite (nest_complete _ _ WB) in E2. injection E2 as <- <-.
  destruct Ia as (ka & -> & Ka), Ib as (io & ib' & -> & (kb & -> & Kb) & (kc & -> & Kc)).
  apply bind_back in E. destruct E as (ts & c2 & E2 & E). cbn -[parse_list ast_from_pair ast_from_syntax_leaf] in E2.
  apply bind_back in E2. destruct E2 as (ta & c3 & Ea & E2).
  destruct (leaf_known _ _ _ _ _ _ _ _ F D Mw Ka Ea) as (k1 & -> & _ & ->).
  apply bind_back in E2. destruct E2 as (tb & c3 & Eb & E2).
  apply bind_back in Eb. destruct Eb as (tb' & c4 & Eb & Eb').
  apply bind_back in Eb. destruct Eb as (tg & c5 & Eg & Et).
  apply bind_back in Eg. destruct Eg as (ti & c6 & Ei & Eg).
  apply bind_back in Ei. destruct Ei as (tl & c7 & Eb & Er).
  apply bind_back in Eb. destruct Eb as (to & c8 & Eo & Eb).
  destruct (leaf_known _ _ _ _ _ _ _ _ F D Mo Kb Eo) as (k2 & -> & N2 & ->).
  apply bind_back in Eb. destruct Eb as (tv & c8 & Ev & Eb).
  apply bind_back in Ev. destruct Ev as (tv' & c9 & Ev & Ev').
  destruct (leaf_known _ _ _ _ _ _ _ _ F D Mv Kc Ev) as (k3 & -> & _ & ->).
  injection Ev' as <- <-. injection Eb as <- <-. exists k1, k2, k3, ti. split; [exact N2|].
  destruct ti as [ti|e].
  - injection Eg as <- <-. unfold parse_list in Et. cbn in Et. injection Et as <- <-. injection Eb' as <- <-. injection E2 as <- <-.
    unfold parse_list in E. cbn in E. injection E as <- <-. split; [exact Er|reflexivity].
  - destruct Eg as [-> ->]. destruct Et as [-> ->]. destruct Eb' as [-> ->]. destruct E2 as [-> ->]. destruct E as [-> ->].
    split; [exact Er|reflexivity].
Qed.

(** ** Evaluation *)
Section Store.
  Variables (cfg : config) (snap : snapshot) (fuel : nat).
  Hypothesis F : fair cfg.
  Hypothesis N : self_numbered snap.
  Hypothesis LC : compositions_are_listed snap.
  Hypothesis LR : listed_compositions_are_real snap.
  Hypothesis UL : forall a b, built_in snap a CLabel -> built_in snap b CLabel -> a = b.
  Variable lab : nat.
  Hypothesis CI : concrete_concept_id cfg snap delta_default CLabel = Ok (Some (Committed lab)).
  Hypothesis BL : built_in snap lab CLabel.
  Hypothesis BI : forall cc c, concrete_concept_id cfg snap delta_default cc = Ok (Some c) -> is_built_in snap c cc.
  Hypothesis ON : operators_named snap.
  Hypothesis HK : hands_keyed snap.
  Hypothesis UN : forall k, unruled snap k.
  (** The words and their symbols. *)
  Variable sym : text -> nat -> Prop.
  Hypothesis SyW : forall w k, sym w k -> word w.
  Hypothesis SyS : forall w k, sym w k -> settled_symbol snap k w.
  Hypothesis SyE : forall w k, sym w k -> exists z v, ends snap k z v /\ sym v z.
  Hypothesis SyR : forall w k q, sym w k -> reduces snap k q -> exists v, sym v q.
  Hypothesis SyI : forall w k k', sym w k -> sym w k' -> k = k'.
  Hypothesis SyN : forall w w' k, sym w k -> sym w' k -> w = w'.
  (** The built-in symbols that matter. *)
  Variable ar : nat.
  Hypothesis ArB : built_in snap ar CReduction.
  Hypothesis ArW : sym (txt "->") ar.
  Hypothesis AsW : forall a, built_in snap a CAssociativity -> sym (txt "assoc") a.
  Hypothesis TrW : forall a, built_in snap a CTrue -> sym (txt "true") a.
  Hypothesis FaW : forall a, built_in snap a CFalse -> sym (txt "false") a.
  Hypothesis TF : forall x, concrete_concept_id cfg snap delta_default (if x : bool then CTrue else CFalse) <> Ok None.
  Hypothesis ArP : forall w b, sym w b -> uncomposed snap ar b /\ unmatched snap ar b.
  Hypothesis AsP : forall a, built_in snap a CAssociativity -> uncomposed snap a ar /\ unmatched snap a ar.
  Notation ops n := (search cfg snap fuel n).
  Notation own_leaf := (leaf_of cfg snap fuel).
  Notation own := (new_env delta_default []).
  Notation untouched := (untouched).
  Notation quiet := (quiet cfg snap fuel).

  (** A symbol as it is read. *)
  Definition read_leaf (k : nat) (t : tree) : Prop := exists w kd, sym w k /\ t = TLeaf w (Some (Committed k)) kd /\ kd <> LVariable.
  (** A pair of symbols that is not a concept. *)
  Definition pair_tree (o b : nat) (t : tree) : Prop :=
    exists wo wb l r, sym wo o /\ sym wb b /\ read_leaf o l /\ read_leaf b r /\ t = TBranch (Some (wo ++ c_space :: wb)) None l r [] [].
  Definition question_tree (a b : nat) (t : tree) : Prop :=
    exists w v l r x, sym w a /\ sym v b /\ read_leaf a l /\ pair_tree ar b r /\ x = question_words w v /\ t = TBranch (Some x) None l r [] [].
  (** What may be found for them. *)
  Definition right_pair (o b : nat) (r : rresult) : Prop :=
    match r with
    | None => forall q, ~ reduces snap b q
    | Some (t, _) => exists b', reduces snap b b' /\ pair_tree o b' t
    end.
  Definition truth (x : bool) : cct := if x then CTrue else CFalse.
  Definition right_question (a b : nat) (r : rresult) : Prop :=
    match r with
    | None => unsettled snap a b /\ (forall q, ~ reduces snap a q) /\ forall q, ~ reduces snap b q
    | Some (t, _) => (exists x n, settles snap a b x /\ built_in snap n (truth x) /\ own_leaf n t) \/
       unsettled snap a b /\ exists a' b', stepped snap a a' /\ stepped snap b b' /\ (reduces snap a a' \/ reduces snap b b') /\
         question_tree a' b' t
    end.
  Definition right_check (x : text) (r : rresult) : Prop :=
    (x = txt "assoc" ++ c_space :: txt "->" -> r = None) /\
    (forall v b, sym v b -> x = txt "->" ++ c_space :: v -> right_pair ar b r) /\
    (forall w v a b y, sym w a -> sym v b -> question_text w v x -> decided snap a b y -> right_question a b r).
  (** The texts that are evaluated. *)
  Definition check_text (x : text) : Prop :=
    x = txt "assoc" ++ c_space :: txt "->" \/ (exists v b, sym v b /\ x = txt "->" ++ c_space :: v) \/
    (exists w v a b, sym w a /\ sym v b /\ question_text w v x).
  Variable extra : text -> rresult -> Prop.
  Hypothesis ExOut : forall x r, extra x r -> right_check x r.
  Hypothesis ExIn : forall x r, check_text x -> right_check x r -> extra x r.
  Notation good := (good cfg snap fuel extra).

  Lemma good_untouched s s' : good s -> quiet s' -> untouched s s' -> good s'.
  Proof.
    intros (_ & So & Fi) Q U. unfold untouched in U. split; [exact Q|].
    split; [intros k' z v x r En X; rewrite U in X; exact (So _ _ _ _ _ En X)|intros x r X; rewrite U in X; exact (Fi _ _ X)].
  Qed.
  Lemma own_read w k t : sym w k -> own_leaf k t -> read_leaf k t.
  Proof.
    intros H Lf. destruct (settled_leaf cfg snap fuel LC LR UL lab CI BL _ _ _ (SyS _ _ H) Lf) as (kd & -> & K). exists w, kd. auto.
  Qed.
  Lemma read_is k t : read_leaf k t -> exists w kd, t = TLeaf w (Some (Committed k)) kd.
  Proof. intros (w & kd & _ & -> & _). eauto. Qed.
  Lemma sym_leaf w k t : sym w k -> read_leaf k t -> exists kd, t = TLeaf w (Some (Committed k)) kd /\ kd <> LVariable.
  Proof. intros H (w' & kd & S & -> & K). rewrite (SyN _ _ _ H S). eauto. Qed.
  Lemma pair_alone o b l r s c s' : uncomposed snap o b -> read_leaf o l -> read_leaf b r ->
    composition_concept cfg snap own l r s = Ok (c, s') -> c = None /\ s' = s.
  Proof.
    intros U Lo Lb E. destruct (read_is _ _ Lo) as (x & k & ->). destruct (read_is _ _ Lb) as (x' & k' & ->).
    unfold composition_concept in E. cbn [t_concept] in E. apply sb in E. destruct E as (m & s1 & R & E). apply read_ok in R.
    destruct R as [R ->]. injection E as <- <-. split; [|reflexivity]. unfold known in R.
    apply (wide_back cfg snap _ (WidensSame _)) in R. destruct R as (c & L & ->).
    cbn [m_find_as_hand mixed_of_committed ch_left aget]. unfold find_as_hand, hand_of.
    destruct (aget Nat.eqb b (lefthand_of c)) as [p|] eqn:A; [|reflexivity]. exfalso. apply (U p), LR. left. exists c. auto.
  Qed.
  Lemma words_joined n w v a b l r s x s' : sym w a -> sym v b -> read_leaf a l -> read_leaf b r ->
    display_joint (ops n) own l r s = Ok (x, s') -> x = w ++ c_space :: v /\ s' = s.
  Proof.
    intros Sw Sv La Lb E. destruct (sym_leaf _ _ _ Sw La) as (k & -> & _). destruct (sym_leaf _ _ _ Sv Lb) as (k' & -> & _).
    unfold display_joint in E. cbn [display] in E. rewrite (word_blank _ (SyW _ _ Sw)), (word_blank _ (SyW _ _ Sv)) in E.
    apply sb in E. destruct E as (y & s1 & [= <- <-] & E). apply sb in E. destruct E as (y & s1 & [= <- <-] & [= <- <-]). auto.
  Qed.
  Lemma pair_branch w v a b l r : sym w a -> sym v b -> read_leaf a l -> read_leaf b r ->
    pair_tree a b (branch (Some (w ++ c_space :: v)) None l r).
  Proof.
    intros Sw Sv La Lb. exists w, v, l, r. repeat (split; [assumption|]).
    destruct (sym_leaf _ _ _ Sw La) as (k & -> & K). destruct (sym_leaf _ _ _ Sv Lb) as (k' & -> & K').
    unfold branch, pair_vars, right_vars. destruct k, k'; try congruence; reflexivity.
  Qed.
  Lemma pair_contracted n w v o b l r s t s' : sym w o -> sym v b -> uncomposed snap o b -> read_leaf o l -> read_leaf b r ->
    contract_pair cfg snap fuel (ops n) own l r s = Ok (t, s') -> pair_tree o b t /\ s' = s.
  Proof.
    intros Sw Sv U Lo Lb E. unfold contract_pair in E. apply sb in E. destruct E as (c & s1 & C & E).
    destruct (pair_alone _ _ _ _ _ _ _ U Lo Lb C) as [-> ->]. apply sb in E. destruct E as (j & s1 & E1 & [= <- <-]).
    unfold smap in E1. apply sb in E1. destruct E1 as (x & s2 & E1 & [= <- <-]).
    destruct (words_joined _ _ _ _ _ _ _ _ _ _ Sw Sv Lo Lb E1) as [-> ->]. split; [|reflexivity]. exact (pair_branch _ _ _ _ _ _ Sw Sv Lo Lb).
  Qed.
  Lemma pair_combined n w v o b l r s t s' : sym w o -> sym v b -> uncomposed snap o b -> read_leaf o l -> read_leaf b r ->
    combine_ast cfg snap (ops n) own l r s = Ok (t, s') -> pair_tree o b t /\ s' = s.
  Proof.
    intros Sw Sv U Lo Lb E. unfold combine_ast in E. apply sb in E. destruct E as (c & s1 & C & E).
    destruct (pair_alone _ _ _ _ _ _ _ U Lo Lb C) as [-> ->]. apply sb in E. destruct E as (j & s1 & E1 & [= <- <-]).
    unfold join in E1. apply sb in E1. destruct E1 as (x & s2 & E1 & [= <- <-]).
    destruct (words_joined _ _ _ _ _ _ _ _ _ _ Sw Sv Lo Lb E1) as [-> ->]. split; [|reflexivity]. exact (pair_branch _ _ _ _ _ _ Sw Sv Lo Lb).
  Qed.

  (** *** No rule applies to such a pair *)
  Definition about (o b : nat) (g : cid) : Prop := exists p x y, g = Committed p /\ composed snap p x y /\ (x = o \/ y = b).
  Lemma not_free k s f s' : elementary snap k -> is_free_variable cfg snap own (Committed k) s = Ok (f, s') -> f = false /\ s' = s.
  Proof.
    intros El E. unfold is_free_variable in E. apply sb in E. destruct E as (m & s1 & R & [= <- <-]).
    apply read_ok in R. destruct R as [R ->]. split; [|reflexivity]. unfold known in R.
    apply (wide_back cfg snap _ (WidensSame _)) in R. destruct R as (o & L & ->). cbn [m_free mixed_of_committed].
    unfold free_variable. destruct El as [(cc & c & L' & S)|(c & rd & L' & S)]; rewrite L in L'; injection L' as <-; rewrite S; reflexivity.
  Qed.
  Lemma no_rule n h o b t g s r s' : unmatched snap o b -> pair_tree o b t -> about o b g ->
    try_rule cfg snap fuel (ops n) own h t g s = Ok (r, s') -> r = None /\ s' = s.
  Proof.
    intros U (wo & wb & l & rt & _ & _ & Lo & Lb & ->) (p & x & y & -> & Cp & O) E. unfold try_rule in E. apply sb in E.
    destruct E as (vm & s1 & C & E).
    assert (Q : (vm = None \/ vm = Some []) /\ s1 = s).
    { cbn [check_generalisation] in C. apply sb in C. destruct C as (f & s2 & Ef & C).
      unfold is_free_variable in Ef. apply sb in Ef. destruct Ef as (m & s3 & R & [= Ef <-]). apply read_ok in R. destruct R as [R ->].
      destruct f; cbn [negb] in C; [|injection C as <- <-; auto].
      apply andb_prop in Ef. destruct Ef as [Ef _].
      cbn [new_env e_bound smem existsb t_concept t_key] in C. apply sb in C. destruct C as (bb & s2 & [= <- <-] & C).
      apply sb in C. destruct C as (comp & s2 & Cc & C). unfold composition_of_concept, smap in Cc. apply sb in Cc.
      destruct Cc as (m' & s3 & R' & [= <- <-]). apply read_ok in R'. destruct R' as [R' ->]. unfold known in R, R'.
      rewrite R in R'. injection R' as <-. apply (wide_back cfg snap _ (WidensSame _)) in R. destruct R as (c & L & ->).
      pose proof Cp as (c' & fv & bv & red & L' & Sp). rewrite L in L'. injection L' as <-.
      cbn [m_composition mixed_of_committed] in C. unfold get_composition in C. rewrite Sp in C. cbn [option_map] in C.
      assert (P : pattern snap p).
      { cbn [m_free mixed_of_committed] in Ef. unfold free_variable in Ef. rewrite Sp in Ef. destruct fv as [|v0 fv]; [discriminate|].
        exists c, x, y, v0, fv, bv, red. auto. }
      destruct (U _ _ _ Cp O P) as [Ex Ey].
      apply sb in C. destruct C as (f1 & s2 & F1 & C). destruct (not_free _ _ _ _ Ex F1) as [-> ->].
      apply sb in C. destruct C as (f2 & s2 & F2 & C). destruct (not_free _ _ _ _ Ey F2) as [-> ->].
      injection C as <- <-. split; [|reflexivity]. destruct (_ && _); auto. }
    destruct Q as [[->| ->] ->]; injection E as <- <-; auto.
  Qed.
  Lemma no_rules n h o b t gs : unmatched snap o b -> pair_tree o b t -> (forall g, In g gs -> about o b g) -> forall s r s',
    find_map (try_rule cfg snap fuel (ops n) own h t) gs s = Ok (r, s') -> r = None /\ s' = s.
  Proof.
    intros U P. induction gs as [|g gs IH]; intros A s r s' E; cbn [find_map] in E; [injection E as <- <-; auto|].
    unfold or_else in E. apply sb in E. destruct E as (x & s1 & E1 & E).
    destruct (no_rule _ _ _ _ _ _ _ _ _ U P (A g (or_introl eq_refl)) E1) as [-> ->].
    exact (IH (fun g J => A g (or_intror J)) _ _ _ E).
  Qed.
  Lemma compositions_added h gs (P : cid -> Prop) : (forall k c g, In (Committed k) gs -> lookup snap k = Some c -> In g (hand_of c h) -> P (Committed (snd g))) ->
    (forall g, In g gs -> exists k, g = Committed k) -> forall acc s r s', (forall g, In g acc -> P g) ->
    add_compositions cfg snap own h gs acc s = Ok (r, s') -> (forall g, In g r -> P g) /\ s' = s.
  Proof.
    induction gs as [|g gs IH]; intros H K acc s r s' A E; cbn [add_compositions] in E; [injection E as <- <-; auto|].
    apply sb in E. destruct E as (m & s1 & R & E). apply read_ok in R. destruct R as [R ->]. destruct (K g (or_introl eq_refl)) as (k & ->).
    unfold known in R. apply (wide_back cfg snap _ (WidensSame _)) in R. destruct R as (c & L & ->).
    apply IH in E; [exact E| | |].
    - intros k' c' g' J. apply H. right. exact J.
    - intros g' J. apply K. right. exact J.
    - intros g' J. apply (sextend_In _ cid_eqb_spec) in J. destruct J as [J|J]; [exact (A _ J)|].
      unfold m_iter_composition_ids in J. apply in_map_iff in J. destruct J as ([a p] & <- & J).
      cbn [m_iter_hand_of mixed_of_committed] in J. apply in_flat_map in J. destruct J as ([k' p'] & J & J').
      assert (Q : (a, p) = (Committed k', Committed p')).
      { destruct h; cbn in J'; destruct J' as [J'|[]]; symmetry; exact J'. }
      injection Q as -> ->. apply (Permutation_in _ (F _ _ _)) in J. exact (H k c (k', p') (or_introl eq_refl) L J).
  Qed.
  Lemma in_keyed (m : list (nat * nat)) j p : NoDup (map fst m) -> In (j, p) m -> aget Nat.eqb j m = Some p.
  Proof.
    induction m as [|[k v] m IH]; intros H J; [destruct J|]. cbn in *. inversion H as [|? ? Nk D]; subst.
    destruct J as [[= -> ->]|J]; [rewrite Nat.eqb_refl; reflexivity|].
    destruct (Nat.eqb_spec j k) as [->|_]; [|exact (IH D J)]. exfalso. apply Nk. exact (in_map fst _ _ J).
  Qed.
  Lemma pair_generalisations o b t s gs s' : pair_tree o b t -> find_generalisations cfg snap own t s = Ok (gs, s') ->
    (forall g, In g gs -> about o b g) /\ s' = s.
  Proof.
    intros (wo & wb & l & r & So & Sb & Lo & Lb & ->) E. destruct (sym_leaf _ _ _ So Lo) as (k & -> & _).
    destruct (sym_leaf _ _ _ Sb Lb) as (k' & -> & _). cbn [find_generalisations] in E.
    apply sb in E. destruct E as (acc & s1 & E1 & E).
    apply (compositions_added _ _ (about o b)) in E1; [| | |intros g []].
    2:{ intros i c [j p] [[= ->]|[]] L J. exists p, i, j. split; [reflexivity|]. split; [|auto]. apply LR. left. exists c.
        split; [exact L|]. exact (in_keyed _ _ _ (HK _ _ HLeft L) J). }
    2:{ intros g [<-|[]]. eauto. }
    destruct E1 as [A1 ->]. apply sb in E. destruct E as (acc2 & s1 & E1 & E).
    apply (compositions_added _ _ (about o b)) in E1; [| | |exact A1].
    2:{ intros i c [j p] [[= ->]|[]] L J. exists p, j, i. split; [reflexivity|]. split; [|auto]. apply LR. right. exists c.
        split; [exact L|]. exact (in_keyed _ _ _ (HK _ _ HRight L) J). }
    2:{ intros g [<-|[]]. eauto. }
    destruct E1 as [A2 ->].
    apply sb in E. destruct E as (gl & s1 & [= <- <-] & E). cbn [add_compositions] in E.
    apply sb in E. destruct E as (ac3 & s1 & [= <- <-] & E). apply sb in E. destruct E as (gr & s1 & [= <- <-] & [= <- <-]). auto.
  Qed.

  (** *** The pairs are evaluated *)
  Lemma sym_built w k cc : sym w k -> built_in snap k cc -> ends snap k k w.
  Proof. intros H B. exact (EndsBuiltIn snap k cc w B (SyS _ _ H)). Qed.
  Lemma built_still k cc q : built_in snap k cc -> ~ reduces snap k q.
  Proof. intros (c & L & S) (c' & m & L' & S'). congruence. Qed.
  Lemma sym_elementary w k : sym w k -> elementary snap k.
  Proof. intros H. apply (SyS _ _ H). Qed.
  Lemma new_red_good s h s' : good s -> new_red_cache s = Ok (h, s') -> good s'.
  Proof.
    intros G E. destruct (l_new _ _ _ _ _ _ _ _ (quiet_laws cfg snap fuel F N LC LR UL lab CI BL BI ON) _ _ _ (proj1 G) E) as (_ & Q & U).
    exact (good_untouched _ _ G Q U).
  Qed.
  Lemma tick_good s n : good s -> good (SState (s_red s) (s_syn s) (s_inf s) n).
  Proof. intros G. exact G. Qed.
  Lemma shuffle_good {A} (l : list A) s l' s' : good s -> shuffle cfg l s = Ok (l', s') -> good s' /\ forall x, In x l' -> In x l.
  Proof.
    intros G E. unfold shuffle in E. apply sb in E. destruct E as (n & s1 & [= <- <-] & [= <- <-]).
    split; [apply tick_good, G|]. intros x J. exact (Permutation_in _ (F _ _ _) J).
  Qed.
  Lemma partial_good p s y s' : good s -> partial_reason cfg p s = Ok (y, s') -> good s'.
  Proof.
    intros G E. unfold partial_reason in E. apply sb in E. destruct E as (p' & s1 & E & [= <- <-]). exact (proj1 (shuffle_good _ _ _ _ G E)).
  Qed.
  Lemma kept_answer x l r t' rr s s' : t' = TBranch (Some x) None l r [] [] -> good s -> extra x rr ->
    insert_reduction own t' rr s = Ok (tt, s') -> good s'.
  Proof.
    intros -> G X E. unfold insert_reduction in E. injection E as <-.
    match goal with |- context [if ?b then _ else _] => destruct b end; [|exact G]. destruct G as ((A1 & A2 & A3) & So & Fi).
    split; [|split].
    - split; [exact A1|]. split; [exact A2|]. cbn [s_red]. intros Q. apply A3. destruct (s_red s); [reflexivity|discriminate Q].
    - intros k z v y q En J. cbn [s_red] in J.
      apply (in_upd 0 (aset key_eqb (t_key (TBranch (Some x) None l r [] [])) rr)) in J. destruct J as [J|[_ J]]; [exact (So _ _ _ _ _ En J)|].
      apply (in_aset _ key_eqb_spec) in J. destruct J as [[Q _]|J]; [discriminate Q|exact (So _ _ _ _ _ En J)].
    - intros y q J. cbn [s_red] in J.
      apply (in_upd 0 (aset key_eqb (t_key (TBranch (Some x) None l r [] [])) rr)) in J. destruct J as [J|[_ J]]; [exact (Fi _ _ J)|].
      apply (in_aset _ key_eqb_spec) in J. destruct J as [[Q ->]|J]; [|exact (Fi _ _ J)].
      unfold t_key in Q. cbn in Q. injection Q as <-. exact X.
  Qed.
  Lemma from_cache x l r s q s' : good s -> cached_reduction own (TBranch (Some x) None l r [] []) s = Ok (Some q, s') -> extra x q.
  Proof.
    intros (_ & _ & Fi) E. injection E as E _. cbn [new_env e_reds lookup_red] in E. destruct (aget _ _ _) as [y|] eqn:A; [|discriminate].
    injection E as ->. apply (aget_in _ key_eqb_spec) in A. exact (Fi _ _ A).
  Qed.
  Lemma leaf_reduced n w k t s r s' : sym w k -> read_leaf k t -> good s -> o_reduce (ops n) own t s = Ok (r, s') ->
    good s' /\ match r with None => forall q, ~ reduces snap k q | Some (u, _) => exists q, reduces snap k q /\ read_leaf q u end.
  Proof.
    intros H (w' & kd & _ & -> & _) G E. destruct (SyE _ _ H) as (z & v & En & _).
    destruct (own_reduce_leaf cfg snap fuel F N LC LR UL lab CI BL BI ON extra n _ _ _ _ _ _ _ _ En G E) as [G1 R]. split; [exact G1|].
    destruct r as [[u why]|]; [|exact R]. destruct R as (q & Rq & L). exists q. split; [exact Rq|].
    destruct (SyR _ _ _ H Rq) as (v' & S'). exact (own_read _ _ _ S' L).
  Qed.
  Lemma pair_reduced n o cc b wo wb l rt t s r s' :
    built_in snap o cc -> sym wo o -> sym wb b -> read_leaf o l -> read_leaf b rt -> t = TBranch (Some (wo ++ c_space :: wb)) None l rt [] [] ->
    (forall b', b' = b \/ reduces snap b b' -> uncomposed snap o b') -> unmatched snap o b ->
    (forall q, right_pair o b q -> extra (wo ++ c_space :: wb) q) -> good s ->
    o_reduce (ops n) own t s = Ok (r, s') -> good s' /\ extra (wo ++ c_space :: wb) r.
  Proof.
    intros Bo So Sb Lo Lb -> UC UM X G E. destruct n as [|n]; [discriminate|]. cbn [search step o_reduce] in E. unfold reduce in E.
    apply sb in E. destruct E as (cached & s1 & C & E). assert (s1 = s) as -> by (now injection C). destruct cached as [rr|].
    { injection E as <- <-. split; [exact G|exact (from_cache _ _ _ _ _ _ G C)]. }
    clear C. cbn [t_concept t_exp opt_then] in E. apply sb in E. destruct E as (cc' & s1 & [= <- <-] & E).
    apply sb in E. destruct E as (rr & s1 & Er & E). apply sb in E. destruct E as ([] & s2 & Ei & E). injection E as <- <-.
    assert (Q : good s1 /\ right_pair o b rr).
    { unfold or_else at 1 in Er. apply sb in Er. destruct Er as (o1 & s3 & [= <- <-] & Er).
      pose proof Lo as Lo'. pose proof Lb as Lb'.
      destruct (sym_leaf _ _ _ So Lo) as (k & -> & _). destruct (sym_leaf _ _ _ Sb Lb) as (k' & -> & _).
      unfold reduce_pair in Er. cbn [t_exp opt_then] in Er. unfold or_else in Er.
      apply sb in Er. destruct Er as (o1 & s3 & [= <- <-] & Er). apply sb in Er. destruct Er as (o1 & s3 & [= <- <-] & Er).
      unfold recursively_reduce_pair in Er. apply sb in Er. destruct Er as (lr & s3 & E1 & Er).
      destruct (leaf_reduced _ _ _ _ _ _ _ So Lo' G E1) as [G3 R1].
      assert (lr = None) as ->.
      { destruct lr as [[u y]|]; [|reflexivity]. destruct R1 as (q & Rq & _). destruct (built_still _ _ _ Bo Rq). }
      apply sb in Er. destruct Er as (br & s4 & E2 & Er). destruct (leaf_reduced _ _ _ _ _ _ _ Sb Lb' G3 E2) as [G4 R2].
      apply sb in Er. destruct Er as (h & s5 & E3 & Er). pose proof (new_red_good _ _ _ G4 E3) as G5.
      destruct br as [[u y]|].
      - destruct R2 as (b' & Rb & Lb2). destruct (SyR _ _ _ Sb Rb) as (v' & Sv').
        apply sb in Er. destruct Er as (t2 & s6 & E4 & Er). cbn [t_concept new_env e_mask ml_get aget] in E4.
        destruct (pair_contracted _ _ _ _ _ _ _ _ _ _ So Sv' (UC _ (or_intror Rb)) Lo' Lb2 E4) as [P ->].
        apply sb in Er. destruct Er as (p & s6 & E5 & [= <- <-]). split; [exact (partial_good _ _ _ _ G5 E5)|]. exists b'. auto.
      - apply sb in Er. destruct Er as (t2 & s6 & E4 & Er).
        destruct (pair_contracted _ _ _ _ _ _ _ _ _ _ So Sb (UC _ (or_introl eq_refl)) Lo' Lb' E4) as [P ->].
        apply sb in Er. destruct Er as (gs & s6 & E5 & Er). destruct (pair_generalisations _ _ _ _ _ _ P E5) as [A ->].
        apply sb in Er. destruct Er as (gs' & s6 & E6 & Er). destruct (shuffle_good _ _ _ _ G5 E6) as [G6 Sh].
        destruct (no_rules _ _ _ _ _ gs' UM P (fun g J => A g (Sh g J)) _ _ _ Er) as [-> ->]. split; [exact G6|exact R2]. }
    destruct Q as [G1 Q]. split; [|exact (X _ Q)]. exact (kept_answer _ _ _ _ _ _ _ eq_refl G1 (X _ Q) Ei).
  Qed.
  Lemma arrow_reduced n b t s r s' : pair_tree ar b t -> good s -> o_reduce (ops n) own t s = Ok (r, s') -> good s' /\ right_pair ar b r.
  Proof.
    intros (wo & wb & l & rt & So & Sb & Lo & Lb & ->) G E. pose proof (SyN _ _ _ So ArW) as ->.
    apply (pair_reduced n ar CReduction b (txt "->") wb l rt) in E; try assumption; try reflexivity.
    - destruct E as [G' X]. split; [exact G'|]. exact (proj1 (proj2 (ExOut _ _ X)) _ _ Sb eq_refl).
    - intros b' [->|R]; [apply (ArP _ _ Sb)|]. destruct (SyR _ _ _ Sb R) as (v & Sv). apply (ArP _ _ Sv).
    - apply (ArP _ _ Sb).
    - intros q Q. apply ExIn; [right; left; exists wb, b; auto|]. split; [|split].
      + intros X. apply (word_split _ _ _ _ arrow_word assoc_word) in X. destruct X as [X _]. discriminate X.
      + intros v b' Sv X. apply (word_split _ _ _ _ arrow_word arrow_word) in X. destruct X as [_ <-]. rewrite <- (SyI _ _ _ Sb Sv). exact Q.
      + intros w v a b' y Sw Sv X _. exfalso. exact (question_pair _ _ _ _ _ (SyW _ _ Sw) arrow_word (SyW _ _ Sb) X eq_refl).
  Qed.
  (** Nothing is known about which way `->` associates. *)
  Lemma arrow_assoc n t s a s' : read_leaf ar t -> good s -> o_assoc (ops n) own t s = Ok (a, s') -> good s' /\ a = ARight.
  Proof.
    intros Lf G E. destruct n as [|n]; [discriminate|]. cbn [search step o_assoc] in E. unfold get_associativity in E.
    apply sb in E. destruct E as (c & s1 & E1 & E). apply lifted in E1. destruct E1 as [Ca ->].
    destruct c as [c|]; [|injection E as <- <-; auto]. destruct (BI _ _ Ca) as (k & -> & Bk).
    apply sb in E. destruct E as (at1 & s1 & E1 & E).
    destruct (own_tree cfg snap fuel F N LR n k s at1 s1 (or_introl (ex_intro _ _ Bk)) (proj1 G) E1) as (Lk & Q1 & U1).
    pose proof (good_untouched _ _ G Q1 U1) as G1. pose proof (AsW _ Bk) as Sk. destruct (AsP _ Bk) as [UC UM].
    apply (own_read _ _ _ Sk) in Lk.
    apply sb in E. destruct E as (t2 & s2 & E2 & E). destruct (pair_combined _ _ _ _ _ _ _ _ _ _ Sk ArW UC Lk Lf E2) as [P ->].
    apply sb in E. destruct E as (r & s2 & E3 & E).
    assert (G2 : good s2 /\ r = None).
    { destruct P as (wo & wb & l & rt & So & Sb & Lo & Lb & ->). rewrite <- (SyN _ _ _ Sk So), <- (SyN _ _ _ ArW Sb) in *. clear So Sb.
      apply (pair_reduced n k CAssociativity ar (txt "assoc") (txt "->") l rt) in E3; try assumption; try reflexivity.
      - destruct E3 as [G3 X]. split; [exact G3|]. exact (proj1 (ExOut _ _ X) eq_refl).
      - intros b' [->|R]; [exact UC|]. destruct (built_still _ _ _ ArB R).
      - intros q Q. apply ExIn; [left; reflexivity|]. split; [|split].
        + intros _. destruct q as [[u y]|]; [|reflexivity]. destruct Q as (b' & R & _). destruct (built_still _ _ _ ArB R).
        + intros v b' Sv X. exfalso. apply (word_split _ _ _ _ assoc_word arrow_word) in X. destruct X as [X _]. discriminate X.
        + intros w v a' b' y Sw Sv X _. exfalso. exact (question_pair _ _ _ _ _ (SyW _ _ Sw) assoc_word arrow_word X eq_refl). }
    destruct G2 as [G2 ->]. apply sb in E. destruct E as (ty & s3 & [= <- <-] & [= <- <-]). auto.
  Qed.

  (** *** The questions *)
  Lemma question_joined n w v a b l r s x s' : sym w a -> sym v b -> read_leaf a l -> pair_tree ar b r -> good s ->
    display_joint (ops n) own l r s = Ok (x, s') -> x = question_words w v /\ good s'.
  Proof.
    intros Sw Sv La (wo & wb & rl & rr & So & Sb & Lo & Lb & ->) G E. pose proof (SyN _ _ _ So ArW) as ->. pose proof (SyN _ _ _ Sb Sv) as ->.
    destruct (sym_leaf _ _ _ Sw La) as (k & -> & _). pose proof Lo as Lo'.
    destruct (sym_leaf _ _ _ So Lo) as (k1 & -> & _). destruct (sym_leaf _ _ _ Sb Lb) as (k2 & -> & _).
    unfold display_joint in E. cbn [display t_exp] in E. rewrite (word_blank _ (SyW _ _ Sw)) in E.
    assert (W : existsb is_whitespace (txt "->" ++ c_space :: v) = true).
    { rewrite existsb_app. cbn [existsb]. apply orb_true_iff. right. reflexivity. }
    rewrite W in E. apply sb in E. destruct E as (y & s1 & [= <- <-] & E). apply sb in E. destruct E as (y & s1 & E1 & [= <- <-]).
    apply sb in E1. destruct E1 as (a' & s2 & E1 & [= <- <-]). destruct (arrow_assoc _ _ _ _ _ Lo' G E1) as [G1 ->]. split; [|exact G1].
    reflexivity.
  Qed.
  Lemma question_branch w v a b l r x : sym w a -> sym v b -> read_leaf a l -> pair_tree ar b r -> x = question_words w v ->
    question_tree a b (branch (Some x) None l r).
  Proof.
    intros Sw Sv La P Q. exists w, v, l, r, x. repeat (split; [assumption|]).
    destruct (sym_leaf _ _ _ Sw La) as (k & -> & K). destruct P as (wo & wb & rl & rr & _ & _ & _ & _ & ->).
    unfold branch, pair_vars, right_vars. destruct k; try congruence; reflexivity.
  Qed.
  Lemma question_alone a b l r s c s' : read_leaf a l -> pair_tree ar b r -> composition_concept cfg snap own l r s = Ok (c, s') -> c = None /\ s' = s.
  Proof.
    intros La (wo & wb & rl & rr & _ & _ & _ & _ & ->) E. unfold composition_concept in E. cbn [t_concept] in E.
    destruct (t_concept l); injection E as <- <-; auto.
  Qed.
  Lemma question_contracted n w v a b l r s t s' : sym w a -> sym v b -> read_leaf a l -> pair_tree ar b r -> good s ->
    contract_pair cfg snap fuel (ops n) own l r s = Ok (t, s') -> question_tree a b t /\ good s'.
  Proof.
    intros Sw Sv La P G E. unfold contract_pair in E. apply sb in E. destruct E as (c & s1 & C & E).
    destruct (question_alone _ _ _ _ _ _ _ La P C) as [-> ->]. apply sb in E. destruct E as (j & s1 & E1 & [= <- <-]).
    unfold smap in E1. apply sb in E1. destruct E1 as (x & s2 & E1 & [= <- <-]).
    destruct (question_joined _ _ _ _ _ _ _ _ _ _ Sw Sv La P G E1) as [Q G1]. split; [|exact G1].
    exact (question_branch _ _ _ _ _ _ _ Sw Sv La P Q).
  Qed.
  Lemma question_combined n w v a b l r s t s' : sym w a -> sym v b -> read_leaf a l -> pair_tree ar b r -> good s ->
    combine_ast cfg snap (ops n) own l r s = Ok (t, s') -> question_tree a b t /\ good s'.
  Proof.
    intros Sw Sv La P G E. unfold combine_ast in E. apply sb in E. destruct E as (c & s1 & C & E).
    destruct (question_alone _ _ _ _ _ _ _ La P C) as [-> ->]. apply sb in E. destruct E as (j & s1 & E1 & [= <- <-]).
    unfold join in E1. apply sb in E1. destruct E1 as (x & s2 & E1 & [= <- <-]).
    destruct (question_joined _ _ _ _ _ _ _ _ _ _ Sw Sv La P G E1) as [Q G1]. split; [|exact G1].
    exact (question_branch _ _ _ _ _ _ _ Sw Sv La P Q).
  Qed.
  Lemma same_leaf a b l r : read_leaf a l -> read_leaf b r -> key_eqb (t_key l) (t_key r) = true <-> a = b.
  Proof.
    intros La Lb. split.
    - destruct (key_eqb_spec (t_key l) (t_key r)) as [K|]; [|discriminate]. intros _.
      destruct (read_is _ _ La) as (x & k & ->). destruct (read_is _ _ Lb) as (x' & k' & ->).
      unfold t_key in K. cbn in K. congruence.
    - intros <-. destruct La as (x & k & Sx & -> & _), Lb as (x' & k' & Sx' & -> & _). rewrite (SyN _ _ _ Sx Sx'). unfold t_key. cbn [t_syntax t_concept].
      match goal with |- key_eqb ?q ?q = true => destruct (key_eqb_spec q q); congruence end.
  Qed.
  Lemma evidence_found n : forall a b wa l r s x s', sym wa a -> read_leaf a l -> read_leaf b r -> good s ->
    o_evidence (ops n) own l r s = Ok (x, s') -> good s' /\ match x with Some _ => reaches snap a b | None => ~ reaches snap a b end.
  Proof.
    induction n as [|n IH]; intros a b wa l r s x s' Sa La Lb G E; [discriminate|]. cbn [search step o_evidence] in E.
    unfold determine_evidence, and_then in E. apply sb in E. destruct E as (q & s1 & E1 & E).
    destruct (leaf_reduced _ _ _ _ _ _ _ Sa La G E1) as [G1 R]. destruct q as [[u why]|].
    - destruct R as (a' & Ra & La'). destruct (SyR _ _ _ Sa Ra) as (w' & Sa').
      pose proof (same_leaf _ _ _ _ La' Lb) as K. destruct (key_eqb (t_key u) (t_key r)).
      + injection E as <- <-. split; [exact G1|]. rewrite <- (proj1 K eq_refl). exact (ReachesNext snap _ _ Ra).
      + apply sb in E. destruct E as (y & s2 & E2 & E). destruct (IH _ _ _ _ _ _ _ _ Sa' La' Lb G1 E2) as [G2 Y]. destruct y as [y|].
        * injection E as <- <-. split; [exact G2|]. exact (ReachesOn snap _ _ _ Ra Y).
        * injection E as <- <-. split; [exact G2|]. intros H. destruct (reaches_first _ _ _ _ Ra H) as [->|H']; [|exact (Y H')].
          destruct K as [_ K]. discriminate (K eq_refl).
    - injection E as <- <-. split; [exact G1|]. intros H. destruct (reaches_some _ _ _ H) as (q & Rq). exact (R _ Rq).
  Qed.
  Lemma truth_found n a b wa wb l r s x s' : sym wa a -> sym wb b -> read_leaf a l -> read_leaf b r -> good s ->
    determine_reduction_truth (ops n) own l r s = Ok (x, s') ->
    good s' /\ match x with Some (y, _) => settles snap a b y | None => unsettled snap a b end.
  Proof.
    intros Sa Sb La Lb G E. unfold determine_reduction_truth in E. pose proof (same_leaf _ _ _ _ La Lb) as K.
    destruct (key_eqb (t_key l) (t_key r)).
    { injection E as <- <-. split; [exact G|]. rewrite <- (proj1 K eq_refl). constructor. }
    apply sb in E. destruct E as (x1 & s1 & E1 & E). destruct (evidence_found _ _ _ _ _ _ _ _ _ Sa La Lb G E1) as [G1 H1].
    apply sb in E. destruct E as (x2 & s2 & E2 & E). destruct (evidence_found _ _ _ _ _ _ _ _ _ Sb Lb La G1 E2) as [G2 H2].
    destruct x1 as [x1|], x2 as [x2|]; try discriminate E; injection E as <- <-; (split; [exact G2|]).
    - exact (SettlesYes snap _ _ H1).
    - exact (SettlesBack snap _ _ H2).
    - intros y H. inversion H; subst; [exact (H1 H0)|destruct K as [_ K]; discriminate (K eq_refl)|exact (H2 H0)].
  Qed.
  Lemma truth_tree n x s r s' : good s -> concrete_ast cfg snap (ops n) own (truth x) s = Ok (r, s') ->
    good s' /\ exists t k, r = Some t /\ built_in snap k (truth x) /\ own_leaf k t.
  Proof.
    intros G E. unfold concrete_ast, and_then in E. apply sb in E. destruct E as (c & s1 & E1 & E). apply lifted in E1. destruct E1 as [C ->].
    cbn [new_env e_delta] in C. destruct c as [c|].
    - destruct (BI _ _ C) as (k & -> & Bk). unfold smap in E. apply sb in E. destruct E as (t & s1 & E1 & [= <- <-]).
      destruct (own_tree cfg snap fuel F N LR n k s t s1 (or_introl (ex_intro _ _ Bk)) (proj1 G) E1) as (Lk & Q1 & U1).
      split; [exact (good_untouched _ _ G Q1 U1)|]. eauto.
    - destruct (TF x C).
  Qed.
  Lemma arrow_type l s ty s' : read_leaf ar l -> concrete_type_of_ast cfg snap own l s = Ok (ty, s') -> ty = Some CReduction /\ s' = s.
  Proof.
    intros Lo E. destruct (read_is _ _ Lo) as (x & k & ->). unfold concrete_type_of_ast, concrete_type in E. cbn [t_concept] in E.
    apply lifted in E. destruct E as [E ->]. split; [|reflexivity]. unfold concrete_concept_type in E. apply obind_ok in E.
    destruct E as (m & R & [= <-]). apply (wide_back cfg snap _ (WidensSame _)) in R. destruct R as (o & L & ->).
    destruct ArB as (c & L' & Sp). rewrite L in L'. injection L' as <-. cbn. unfold get_concrete. rewrite Sp. reflexivity.
  Qed.
  Lemma left_stepped n w a l s r s' : sym w a -> read_leaf a l -> good s -> o_reduce (ops n) own l s = Ok (r, s') ->
    good s' /\ exists a' w', sym w' a' /\ stepped snap a a' /\
      match r with Some (t, _) => reduces snap a a' /\ read_leaf a' t | None => a' = a /\ forall q, ~ reduces snap a q end.
  Proof.
    intros Sw La G E. destruct (leaf_reduced _ _ _ _ _ _ _ Sw La G E) as [G1 R]. split; [exact G1|]. destruct r as [[t why]|].
    - destruct R as (a' & Ra & L'). destruct (SyR _ _ _ Sw Ra) as (w' & S'). exists a', w'. unfold stepped. auto.
    - exists a, w. unfold stepped. auto.
  Qed.
  Lemma right_stepped n w b t s r s' : sym w b -> pair_tree ar b t -> good s -> o_reduce (ops n) own t s = Ok (r, s') ->
    good s' /\ exists b' w', sym w' b' /\ stepped snap b b' /\
      match r with Some (t', _) => reduces snap b b' /\ pair_tree ar b' t' | None => b' = b /\ forall q, ~ reduces snap b q end.
  Proof.
    intros Sw Pb G E. destruct (arrow_reduced _ _ _ _ _ _ Pb G E) as [G1 R]. split; [exact G1|]. destruct r as [[t' why]|].
    - destruct R as (b' & Rb & P'). destruct (SyR _ _ _ Sw Rb) as (w' & S'). exists b', w'. unfold stepped. auto.
    - exists b, w. unfold stepped. auto.
  Qed.
  (** The question can go on, or is left as it is. *)
  Lemma decided_later a b y : decided snap a b y -> unsettled snap a b ->
    (exists a' b', stepped snap a a' /\ stepped snap b b' /\ (reduces snap a a' \/ reduces snap b b') /\ decided snap a' b' y) \/
    y = Stays a b /\ (forall q, ~ reduces snap a q) /\ (forall q, ~ reduces snap b q) /\
      forall k p, In k [ar; a; b] -> mentions snap p k -> ~ pattern snap p.
  Proof.
    intros H U. destruct H as [a b x S|a b a' b' y _ Sa Sb O D|a b _ Na Nb M]; [destruct (U _ S)|left; exists a', b'; auto|].
    right. split; [reflexivity|]. split; [exact Na|]. split; [exact Nb|]. intros k p. exact (M ar k p ArB).
  Qed.
  Lemma pair_shape o b t : pair_tree o b t -> t_concept t = None /\ exists l r, t_exp t = Some (l, r) /\ read_leaf o l /\ read_leaf b r.
  Proof. intros (wo & wb & l & r & _ & _ & Lo & Lb & ->). split; [reflexivity|]. exists l, r. auto. Qed.
  (** *** No rule applies to a question *)
  Definition about_question (a b : nat) (g : cid) : Prop := exists p k, g = Committed p /\ In k [ar; a; b] /\ mentions snap p k.
  Lemma question_generalisations a b t s gs s' : question_tree a b t -> find_generalisations cfg snap own t s = Ok (gs, s') ->
    (forall g, In g gs -> about_question a b g) /\ s' = s.
  Proof.
    assert (HL : forall k c g, lookup snap k = Some c -> In g (hand_of c HLeft) -> composed snap (snd g) k (fst g)).
    { intros k c [j p'] L J. apply LR. left. exists c. split; [exact L|]. exact (in_keyed _ _ _ (HK _ _ HLeft L) J). }
    assert (HR : forall k c g, lookup snap k = Some c -> In g (hand_of c HRight) -> composed snap (snd g) (fst g) k).
    { intros k c [j p'] L J. apply LR. right. exists c. split; [exact L|]. exact (in_keyed _ _ _ (HK _ _ HRight L) J). }
    intros (w & v & l & r & x & Sw & Sv & La & Pb & _ & ->) E. destruct (sym_leaf _ _ _ Sw La) as (k & -> & _).
    destruct (pair_shape _ _ _ Pb) as (Tc & _). cbn [find_generalisations] in E. unfold concept_list in E. rewrite Tc in E. cbn [t_concept] in E.
    apply sb in E. destruct E as (acc & s1 & E1 & E).
    apply (compositions_added _ _ (about_question a b)) in E1; [| | |intros g []].
    2:{ intros i c g [[= ->]|[]] L Jg. exists (snd g), i. split; [reflexivity|]. split; [cbn; auto|]. exact (MentionsLeft snap _ _ _ (HL _ _ _ L Jg)). }
    2:{ intros g [<-|[]]. eauto. }
    destruct E1 as [A1 ->]. apply sb in E. destruct E as (acc2 & s1 & E1 & E). cbn [add_compositions] in E1. injection E1 as <- <-.
    apply sb in E. destruct E as (gl & s1 & [= <- <-] & E). cbn [add_compositions] in E.
    apply sb in E. destruct E as (ac3 & s1 & [= <- <-] & E). apply sb in E. destruct E as (gr & s1 & Er & E).
    destruct (pair_generalisations _ _ _ _ _ _ Pb Er) as [Ag ->].
    apply (compositions_added _ _ (about_question a b)) in E; [exact E| | |exact A1].
    - intros i c g J L Jg. destruct (Ag _ J) as (p & y & z & [= ->] & Cp & O). exists (snd g).
      pose proof (HR _ _ _ L Jg) as C. destruct O as [->| ->].
      + exists ar. split; [reflexivity|]. split; [cbn; auto|]. exact (MentionsInRight snap _ _ _ _ C (MentionsLeft snap _ _ _ Cp)).
      + exists b. split; [reflexivity|]. split; [cbn; auto|]. exact (MentionsInRight snap _ _ _ _ C (MentionsRight snap _ _ _ Cp)).
    - intros g J. destruct (Ag _ J) as (p & _ & _ & -> & _). eauto.
  Qed.
  Lemma question_unruled n h a b t g s r s' : (forall k p, In k [ar; a; b] -> mentions snap p k -> ~ pattern snap p) -> about_question a b g ->
    try_rule cfg snap fuel (ops n) own h t g s = Ok (r, s') -> r = None /\ s' = s.
  Proof.
    intros NP (p & k & -> & Jk & M) E. unfold try_rule in E. apply sb in E.
    destruct E as (vm & s1 & C & E).
    assert (Q : (vm = None \/ vm = Some []) /\ s1 = s).
    { destruct t as [x c kd|x c tl tr fv bv]; cbn [check_generalisation] in C; apply sb in C; destruct C as (f & s2 & Ef & C);
      unfold is_free_variable in Ef; apply sb in Ef; destruct Ef as (m & s3 & R & [= Ef <-]); apply read_ok in R; destruct R as [R ->];
      (assert (f = false) as ->; [|cbn [negb] in C; injection C as <- <-; auto]).
      all: rewrite <- Ef; unfold known in R; apply (wide_back cfg snap _ (WidensSame _)) in R; destruct R as (c0 & L & ->);
        cbn [m_free mixed_of_committed]; unfold free_variable;
        assert (Cp : exists x0 y0, composed snap p x0 y0) by (clear - M; destruct M; eauto);
        destruct Cp as (x0 & y0 & c' & fv0 & bv0 & red & L' & Sp); rewrite L in L'; injection L' as <-; rewrite Sp;
        destruct fv0 as [|v0 fv0]; [reflexivity|]; exfalso; apply (NP _ _ Jk M); exists c0, x0, y0, v0, fv0, bv0, red; auto. }
    destruct Q as [[->| ->] ->]; injection E as <- <-; auto.
  Qed.
  Lemma question_no_rules n h a b t gs : (forall k p, In k [ar; a; b] -> mentions snap p k -> ~ pattern snap p) ->
    (forall g, In g gs -> about_question a b g) -> forall s r s',
    find_map (try_rule cfg snap fuel (ops n) own h t) gs s = Ok (r, s') -> r = None /\ s' = s.
  Proof.
    intros NP A. induction gs as [|g gs IH]; intros s r s' E; cbn [find_map] in E; [injection E as <- <-; auto|].
    unfold or_else in E. apply sb in E. destruct E as (x & s1 & E1 & E).
    destruct (question_unruled _ _ _ _ _ _ _ _ _ NP (A g (or_introl eq_refl)) E1) as [-> ->].
    exact (IH (fun g J => A g (or_intror J)) _ _ _ E).
  Qed.
  Lemma question_reduced n a b y t s r s' : question_tree a b t -> decided snap a b y -> good s ->
    o_reduce (ops n) own t s = Ok (r, s') -> good s' /\ right_question a b r.
  Proof.
    intros (w & v & l & rt & x & Sw & Sv & La & Pb & Ex & ->) De G E. assert (Qx : question_text w v x) by (left; exact Ex). clear Ex.
    assert (X : forall q, right_question a b q -> extra x q).
    { intros q Q. apply ExIn; [right; right; exists w, v, a, b; auto|]. split; [|split].
      - intros Ex. exfalso. exact (question_pair _ _ _ _ _ (SyW _ _ Sw) assoc_word arrow_word Qx Ex).
      - intros v' b' Sv' Ex. exfalso. exact (question_pair _ _ _ _ _ (SyW _ _ Sw) arrow_word (SyW _ _ Sv') Qx Ex).
      - intros w' v' a' b' y' Sw' Sv' Q' _.
        destruct (question_one _ _ _ _ _ (SyW _ _ Sw) (SyW _ _ Sv) (SyW _ _ Sw') (SyW _ _ Sv') Qx Q') as [<- <-].
        rewrite <- (SyI _ _ _ Sw Sw'), <- (SyI _ _ _ Sv Sv'). exact Q. }
    destruct n as [|n]; [discriminate|]. cbn [search step o_reduce] in E. unfold reduce in E.
    apply sb in E. destruct E as (cached & s1 & C & E). assert (s1 = s) as -> by (now injection C). destruct cached as [rr|].
    { injection E as <- <-. split; [exact G|]. exact (proj2 (proj2 (ExOut _ _ (from_cache _ _ _ _ _ _ G C))) _ _ _ _ _ Sw Sv Qx De). }
    clear C. cbn [t_concept t_exp opt_then] in E. apply sb in E. destruct E as (cc' & s1 & [= <- <-] & E).
    apply sb in E. destruct E as (rr & s1 & Er & E). apply sb in E. destruct E as ([] & s2 & Ei & E). injection E as <- <-.
    assert (Q : good s1 /\ right_question a b rr).
    { unfold or_else at 1 in Er. apply sb in Er. destruct Er as (o1 & s3 & [= <- <-] & Er).
      destruct (pair_shape _ _ _ Pb) as (Tc & rl & rr' & Te & Lo & Lb).
      pose proof La as La'. destruct (sym_leaf _ _ _ Sw La) as (k & -> & _). cbn [t_exp] in Er.
      unfold reduce_pair in Er. rewrite Te in Er. cbn [t_exp opt_then] in Er. unfold or_else in Er.
      apply sb in Er. destruct Er as (o1 & s3 & Eq & Er).
      unfold reduce_by_expanded_right_branch in Eq. apply sb in Eq. destruct Eq as (ty & s4 & Et & Eq).
      destruct (arrow_type _ _ _ _ Lo Et) as [-> ->]. unfold and_then at 1 in Eq. apply sb in Eq. destruct Eq as (tr & s4 & Et' & Eq).
      destruct (truth_found _ _ _ _ _ _ _ _ _ _ Sw Sv La' Lb G Et') as [G4 H4].
      destruct tr as [[z why]|].
      - unfold and_then in Eq. apply sb in Eq. destruct Eq as (u & s5 & Eu & Eq).
        destruct (truth_tree _ _ _ _ _ G4 Eu) as (G5 & u' & k' & -> & Bk & Lk). injection Eq as <- <-. injection Er as <- <-.
        split; [exact G5|]. left. exists z, k'. auto.
      - injection Eq as <- <-. pose proof (decided_later _ _ _ De H4) as DL.
        apply sb in Er. destruct Er as (o1 & s5 & [= <- <-] & Er).
        unfold recursively_reduce_pair in Er. apply sb in Er. destruct Er as (lr & s5 & E1 & Er).
        destruct (left_stepped _ _ _ _ _ _ _ Sw La' G4 E1) as (G5 & a' & w1 & Sw1 & Sa & H1).
        apply sb in Er. destruct Er as (br & s6 & E2 & Er).
        destruct (right_stepped _ _ _ _ _ _ _ Sv Pb G5 E2) as (G6 & b' & v1 & Sv1 & Sb & H2).
        apply sb in Er. destruct Er as (h & s7 & E3 & Er). pose proof (new_red_good _ _ _ G6 E3) as G7.
        rewrite Tc in Er. cbn [t_concept new_env e_mask ml_get aget] in Er.
        assert (K : reduces snap a a' \/ reduces snap b b' -> forall l2 r2, read_leaf a' l2 -> pair_tree ar b' r2 -> forall p s'' rr, 
          (t <~ contract_pair cfg snap fuel (ops n) own l2 r2 ;; p <~ partial_reason cfg p ;; sret (Some (t, p)))%search s7 = Ok (rr, s'') ->
          good s'' /\ right_question a b rr).
        { intros O l2 r2 Ll Lr p s'' q Ek. apply sb in Ek. destruct Ek as (t2 & s8 & E4 & Ek).
          destruct (question_contracted _ _ _ _ _ _ _ _ _ _ Sw1 Sv1 Ll Lr G7 E4) as [Q2 G8].
          apply sb in Ek. destruct Ek as (p' & s9 & E5 & [= <- <-]). split; [exact (partial_good _ _ _ _ G8 E5)|].
          right. split; [exact H4|]. exists a', b'. auto. }
        destruct lr as [[lt lwhy]|], br as [[rt' rwhy]|].
        + exact (K (or_introl (proj1 H1)) _ _ (proj2 H1) (proj2 H2) _ _ _ Er).
        + destruct H2 as [-> _]. exact (K (or_introl (proj1 H1)) _ _ (proj2 H1) Pb _ _ _ Er).
        + destruct H1 as [-> _]. exact (K (or_intror (proj1 H2)) _ _ La' (proj2 H2) _ _ _ Er).
        + clear K. destruct H1 as [-> N1], H2 as [-> N2].
          destruct DL as [(a1 & b1 & _ & _ & O & _)|(_ & _ & _ & NP)]; [exfalso; destruct O as [O|O]; [exact (N1 _ O)|exact (N2 _ O)]|].
          apply sb in Er. destruct Er as (t2 & s8 & E4 & Er).
          destruct (question_contracted _ _ _ _ _ _ _ _ _ _ Sw Sv La' Pb G7 E4) as [Q2 G8].
          apply sb in Er. destruct Er as (gs & s9 & E5 & Er). destruct (question_generalisations _ _ _ _ _ _ Q2 E5) as [A ->].
          apply sb in Er. destruct Er as (gs' & s9 & E6 & Er). destruct (shuffle_good _ _ _ _ G8 E6) as [G9 Sh].
          destruct (question_no_rules _ _ _ _ _ gs' NP (fun g J => A g (Sh g J)) _ _ _ Er) as [-> ->]. split; [exact G9|]. split; [exact H4|]. auto. }
    destruct Q as [G1 Q]. split; [|exact Q]. exact (kept_answer _ _ _ _ _ _ _ eq_refl G1 (X _ Q) Ei).
  Qed.
  Lemma truth_sym k x : built_in snap k (truth x) -> sym (if x then txt "true" else txt "false") k.
  Proof. destruct x; [apply TrW|apply FaW]. Qed.
  Lemma truth_ends k x : built_in snap k (truth x) -> ends snap k k (if x then txt "true" else txt "false").
  Proof. intros B. exact (sym_built _ _ _ (truth_sym _ _ B) B). Qed.
  (** *** The command *)
  Notation asked := (asked cfg snap fuel extra).
  (** Evaluating [a] does not lead to a command. *)
  Definition harmless (a : nat) : Prop :=
    forall cc q, a = q \/ reaches snap a q -> built_in snap q cc -> cc <> CLet /\ cc <> CForget /\ cc <> CLabel.
  Lemma harmless_next a a' : harmless a -> reduces snap a a' -> harmless a'.
  Proof.
    intros H R cc q [->|O] B; apply (H cc _) in B; auto; right; [now constructor|]. exact (ReachesOn snap _ _ _ R O).
  Qed.
  (** What the evaluation of a question ends with. *)
  Definition comes_to (y : outcome) (t : tree) : Prop :=
    match y with
    | Says x => exists k, built_in snap k (truth x) /\ own_leaf k t
    | Stays z z' => question_tree z z' t /\ harmless z /\ decided snap z z' (Stays z z')
    end.
  Lemma harmless_step a a' : harmless a -> stepped snap a a' -> harmless a'.
  Proof. intros H [R|[-> _]]; [exact (harmless_next _ _ H R)|exact H]. Qed.
  Lemma question_normal n : forall a b y t why s r why' s', harmless a -> question_tree a b t -> decided snap a b y -> good s ->
    o_nf (ops n) own t why s = Ok ((r, why'), s') -> good s' /\ comes_to y r.
  Proof.
    induction n as [|n IH]; intros a b y t why s r why' s' Ha Qt De G E; [discriminate|].
    cbn [search step o_nf] in E. unfold normal_form in E. apply sb in E. destruct E as (rr & s1 & Er & E).
    destruct (question_reduced _ _ _ _ _ _ _ _ Qt De G Er) as (G1 & H).
    destruct rr as [[t' reason]|].
    - destruct H as [(x & k & Se & Bk & Lk)|(U & a' & b' & Sa & Sb & O & Q')].
      + assert (y = Says x) as ->.
        { destruct Qt as (w & _ & _ & _ & _ & Sw & _). destruct (SyE _ _ Sw) as (z & v & En & _).
          destruct De as [a b y Se'|a b a' b' y U _ _ _ _|a b U _ _ _]; [f_equal; exact (settles_one _ _ _ _ _ _ _ En Se' Se)|destruct (U _ Se)|destruct (U _ Se)]. }
        destruct (own_normal_form cfg snap fuel F N LC LR UL lab CI BL BI ON extra _ _ _ _ _ _ _ _ _ _ (truth_ends _ _ Bk) Lk G1 E) as [G2 L2].
        split; [exact G2|]. exists k. auto.
      + destruct (decided_later _ _ _ De U) as [(a2 & b2 & Sa2 & Sb2 & _ & D2)|(_ & Na & Nb & _)].
        * rewrite (stepped_one _ _ _ _ Sa2 Sa), (stepped_one _ _ _ _ Sb2 Sb) in D2.
          exact (IH _ _ _ _ _ _ _ _ _ (harmless_step _ _ Ha Sa) Q' D2 G1 E).
        * exfalso. destruct O as [O|O]; [exact (Na _ O)|exact (Nb _ O)].
    - destruct H as (U & Na & Nb). injection E as <- <- <-. split; [exact G1|].
      destruct (decided_later _ _ _ De U) as [(a2 & b2 & _ & _ & O & _)|(-> & _)]; [exfalso; destruct O as [O|O]; [exact (Na _ O)|exact (Nb _ O)]|].
      split; [exact Qt|]. auto.
  Qed.
  Lemma leaf_type k l c r c' : read_leaf k l -> asked c -> c_concrete_type_of cfg l c = Ok (r, c') ->
    c' = c /\ exists ty, r = Val ty /\ forall cc, ty = Some cc -> built_in snap k cc.
  Proof.
    intros Lf H E. destruct (read_is _ _ Lf) as (x & kd & ->). unfold c_concrete_type_of, c_concrete_type in E. cbn [t_concept] in E.
    apply lift_clean in E; [|apply clean_type]. destruct E as (-> & ty & -> & T). split; [reflexivity|]. exists ty. split; [reflexivity|].
    intros cc ->. destruct H as (S & D & _). rewrite S, D in T. apply (wide_type cfg snap _ (WidensSame _)) in T.
    destruct T as (n & [= <-] & B). exact B.
  Qed.
  Lemma pair_type o b t c r c' : pair_tree o b t -> c_concrete_type_of cfg t c = Ok (r, c') -> r = Val None /\ c' = c.
  Proof. intros P E. destruct (pair_shape _ _ _ P) as (T & _). unfold c_concrete_type_of in E. rewrite T in E. injection E as <- <-. auto. Qed.
  (** The two sides are not commands. *)
  Lemma question_pair_called n : forall a b w v l r c x c', sym w a -> sym v b -> harmless a -> read_leaf a l -> pair_tree ar b r -> asked c ->
    snd (calls cfg fuel n) l r c = Ok (x, c') -> asked c' /\ x = Fail CannotReduceFurther.
  Proof.
    induction n as [|n IH]; intros a b w v l r c x c' Sw Sv Ha La Pb H E; [discriminate|]. cbn [calls snd] in E. unfold call_pair_step in E.
    pose proof (search_clean cfg snap fuel fuel) as Cl.
    apply bind_back in E. destruct E as (ty & c1 & E1 & E). destruct (leaf_type _ _ _ _ _ La H E1) as (-> & ty' & -> & T).
    apply bind_back in E. destruct E as (done & c1 & E2 & E).
    assert (done = Val None /\ c1 = c) as [-> ->].
    { destruct ty' as [cc|]; [|injection E2 as <- <-; auto]. destruct (Ha cc a (or_introl eq_refl) (T _ eq_refl)) as (N1 & N2 & N3).
      destruct cc; try congruence; injection E2 as <- <-; auto. }
    apply bind_back in E. destruct E as (ty2 & c1 & E3 & E). destruct (pair_type _ _ _ _ _ _ Pb E3) as [-> ->].
    cbn [opt_cct_eqb] in E. unfold reduce_and_call_pair in E.
    apply bind_back in E. destruct E as (lr & c1 & E4 & E). unfold c_reduce in E4. assert (S := proj1 H).
    apply (asked_search cfg snap fuel extra _ (fun r => exists a' w', sym w' a' /\ harmless a' /\
      match r with Some (t, _) => read_leaf a' t | None => a' = a end)) in E4; [|exact H| |].
    2:{ unfold ops_of. rewrite S. apply (oc_reduce _ Cl). }
    2:{ intros s q s' G X. unfold ops_of in X. rewrite S in X. destruct (left_stepped _ _ _ _ _ _ _ Sw La G X) as (G1 & a' & w' & Sw' & _ & R).
        split; [exact G1|]. exists a', w'. split; [exact Sw'|]. destruct q as [[q why]|]; [split; [exact (harmless_next _ _ Ha (proj1 R))|apply R]|].
        destruct R as [-> _]. auto. }
    destruct E4 as (H1 & lr' & -> & a' & w' & Sw' & Ha' & R1).
    apply bind_back in E. destruct E as (rr & c2 & E5 & E). unfold c_reduce in E5. assert (S1 := proj1 H1).
    apply (asked_search cfg snap fuel extra _ (fun r => exists b' v', sym v' b' /\
      match r with Some (t, _) => pair_tree ar b' t | None => b' = b end)) in E5; [|exact H1| |].
    2:{ unfold ops_of. rewrite S1. apply (oc_reduce _ Cl). }
    2:{ intros s q s' G X. unfold ops_of in X. rewrite S1 in X. destruct (right_stepped _ _ _ _ _ _ _ Sv Pb G X) as (G1 & b' & v' & Sv' & _ & R).
        split; [exact G1|]. exists b', v'. split; [exact Sv'|]. destruct q as [[q why]|]; apply R. }
    destruct E5 as (H2 & rr' & -> & b' & v' & Sv' & R2).
    destruct lr' as [[l' why]|], rr' as [[r' why']|]; try (subst a'); try (subst b').
    - exact (IH _ _ _ _ _ _ _ _ _ Sw' Sv' Ha' R1 R2 H2 E).
    - exact (IH _ _ _ _ _ _ _ _ _ Sw' Sv' Ha' R1 Pb H2 E).
    - exact (IH _ _ _ _ _ _ _ _ _ Sw' Sv' Ha' La R2 H2 E).
    - injection E as <- <-. auto.
  Qed.
  (** How it is answered. *)
  Definition worded (y : outcome) (x : text) : Prop :=
    match y with
    | Says b => x = if b then txt "true" else txt "false"
    | Stays z z' => exists w v, sym w z /\ sym v z' /\ x = question_words w v
    end.
  Lemma question_inert e a b t : simple snap e -> question_tree a b t -> inert cfg snap e t.
  Proof.
    intros Se (w & v & l & r & x & Sw & Sv & La & (wo & wb & l2 & r2 & So & Sb & Lo & Lb & ->) & _ & ->).
    assert (LF : forall u k t, sym u k -> read_leaf k t -> inert cfg snap e t).
    { intros u k t S L. destruct (sym_leaf _ _ _ S L) as (kd & -> & _). apply InertLeaf. apply (closed_leaf cfg snap); [exact Se|]. exact (sym_elementary _ _ S). }
    apply InertPair; [exact (LF _ _ _ Sw La)| |].
    - apply InertPair; [exact (LF _ _ _ So Lo)|exact (LF _ _ _ Sb Lb)|]. intros c. unfold pair_concept.
      destruct (read_is _ _ Lo) as (x1 & k1 & ->). destruct (read_is _ _ Lb) as (x2 & k2 & ->). cbn [t_concept]. intros (m & R & ->).
      unfold known in R. apply (wide_back cfg snap _ (proj1 Se)) in R. destruct R as (c & L & ->).
      cbn [m_find_as_hand mixed_of_committed ch_left aget]. unfold find_as_hand, hand_of.
      destruct (aget Nat.eqb b (lefthand_of c)) as [p|] eqn:A; [|reflexivity]. exfalso. apply (proj1 (ArP _ _ Sv) p), LR. left. exists c. auto.
    - intros c. unfold pair_concept. cbn [t_concept]. destruct (t_concept l); auto.
  Qed.
  Lemma question_inferred n a b t s r s' : question_tree a b t -> good s ->
    find_examples_of_inferred_reduction cfg snap fuel (ops n) own t s = Ok (r, s') -> good s' /\ r = None.
  Proof.
    intros R G E. pose proof G as (Q & So & Fi).
    destruct (infers_nothing_for cfg snap fuel F N LC LR UL lab CI BL BI ON _ _ _ _ _
      (quiet_laws cfg snap fuel F N LC LR UL lab CI BL BI ON)) with (n := n) (e := own) (o := @None nat) (t := t) (s := s) (r := r) (s' := s')
      as (-> & H2 & U2); try assumption.
    - intros q X. exact (proj1 X).
    - intros e X. exact (proj1 X).
    - apply own_simple.
    - intros h d q e' q' Hh Wd Hq Eq. exact (own_spawn cfg snap fuel _ _ _ _ _ Hh Wd Hq Eq).
    - intros c q u q' Bc Hq Eq. exact (proj2 (own_tree cfg snap fuel F N LR _ _ _ _ _ (or_introl (ex_intro _ _ Bc)) Hq Eq)).
    - intros k _. apply UN.
    - intros e' Se'. exact (question_inert _ _ _ _ Se' R).
    - split; [exact (good_untouched _ _ G H2 U2)|reflexivity].
  Qed.
  Lemma question_called n : forall a b w v y t c r c', sym w a -> sym v b -> harmless a -> question_tree a b t -> decided snap a b y -> asked c ->
    fst (calls cfg fuel n) t c = Ok (r, c') -> asked c' /\ exists x, r = Val x /\ worded y x.
  Proof.
    induction n as [|n IH]; intros a b w v y t c r c' Sw Sv Ha Qt De H E; [discriminate|]. cbn [calls fst] in E. unfold call_step in E.
    pose proof (search_clean cfg snap fuel fuel) as Cl. assert (Q := Qt).
    destruct Q as (w' & v' & l & rt & x & Sw' & Sv' & La & Pb & Qx & Qe). pose proof (SyN _ _ _ Sw' Sw) as ->. pose proof (SyN _ _ _ Sv' Sv) as ->.
    rewrite Qe in E. cbn [t_concept t_exp] in E.
    apply bind_back in E. destruct E as (o & c1 & [= <- <-] & E).
    unfold on_irreducible in E. apply bind_back in E. destruct E as (z & c1 & E1 & E).
    apply catch_back in E1. destruct E1 as (z1 & -> & E1).
    destruct (question_pair_called _ _ _ _ _ _ _ _ _ _ Sw Sv Ha La Pb H E1) as [H1 ->].
    apply bind_back in E. destruct E as (z & c2 & E2 & E).
    apply catch_back in E2. destruct E2 as (z1 & -> & E2). unfold try_reducing_then_call in E2.
    apply bind_back in E2. destruct E2 as (nf & c3 & E3 & E2). unfold c_normal_form in E3. assert (S1 := proj1 H1).
    apply (asked_search cfg snap fuel extra _ (comes_to y)) in E3; [|exact H1| |].
    2:{ unfold ops_of. rewrite S1. apply sclean_smap, (oc_nf _ Cl). }
    2:{ intros s q s' G X. unfold ops_of in X. rewrite S1 in X. unfold smap in X. apply sb in X.
        destruct X as ([a' why] & s1 & X & [= <- <-]). cbn [fst]. rewrite <- Qe in X. exact (question_normal _ _ _ _ _ _ _ _ _ _ Ha Qt De G X). }
    destruct E3 as (H3 & nf' & -> & CT). destruct y as [y|z z'].
    - destruct CT as (k & Bk & Lk).
      destruct (key_eqb_spec (t_key nf') (t_key (TBranch (Some x) None l rt [] []))) as [Ke|_].
      { destruct (leaf_is _ _ _ N _ _ Lk) as (x' & kk' & ->). unfold t_key in Ke. cbn in Ke. discriminate Ke. }
      unfold with_pin in E2. apply obind_ok in E2. destruct E2 as ([r1 c4] & E4 & [= <- <-]).
      apply (symbol_call cfg snap fuel F N LC LR UL lab CI BL BI ON extra _ _ _ _ _ _ _ _ (truth_ends _ _ Bk) Lk) in E4; [|exact H3].
      destruct E4 as [H4 ->]. injection E as <- <-. split; [exact H4|]. eexists. split; [reflexivity|reflexivity].
    - destruct CT as (Qz & Hz & Dz). assert (Q := Qz). destruct Q as (wz & vz & lz & rz & xz & Swz & Svz & _ & _ & Qxz & Qez).
      destruct (key_eqb_spec (t_key nf') (t_key (TBranch (Some x) None l rt [] []))) as [Ke|_].
      + assert (Z : z = a /\ z' = b).
        { rewrite Qez in Ke. unfold t_key in Ke. cbn [t_syntax t_concept] in Ke. injection Ke as Ke. rewrite Qx, Qxz in Ke.
          destruct (question_one wz vz w v (question_words w v) (SyW _ _ Swz) (SyW _ _ Svz) (SyW _ _ Sw) (SyW _ _ Sv)) as [-> ->];
            [left; symmetry; exact Ke|left; reflexivity|]. split; [exact (SyI _ _ _ Swz Sw)|exact (SyI _ _ _ Svz Sv)]. }
        destruct Z as [-> ->].
        apply bind_back in E2. destruct E2 as (inf & c4 & E4 & E2). unfold c_inferred in E4. assert (S3 := proj1 H3).
        apply (asked_search cfg snap fuel extra _ (fun r => r = None)) in E4; [|exact H3| |].
        2:{ unfold ops_of. rewrite S3. apply inferred_clean, Cl. }
        2:{ intros s q s' G Y. unfold ops_of in Y. rewrite S3 in Y. rewrite <- Qe in Y. exact (question_inferred _ _ _ _ _ _ _ Qt G Y). }
        destruct E4 as (H4 & q & -> & ->). injection E2 as <- <-.
        apply bind_back in E. destruct E as (t2 & c5 & E5 & E). unfold c_contract in E5. assert (S4 := proj1 H4).
        apply (asked_search cfg snap fuel extra _ (question_tree a b)) in E5; [|exact H4| |].
        2:{ unfold ops_of. rewrite S4. apply contract_pair_clean, Cl. }
        2:{ intros s q s' G Y. unfold ops_of in Y. rewrite S4 in Y.
            destruct (question_contracted _ _ _ _ _ _ _ _ _ _ Sw Sv La Pb G Y) as [Q2 G2]. auto. }
        destruct E5 as (H5 & t' & -> & Qt'). injection E as <- <-. split; [exact H5|]. eexists. split; [reflexivity|].
        destruct Qt' as (w1 & v1 & l1 & r1 & x1 & Sw1 & Sv1 & _ & _ & Q1 & ->). exists w1, v1. split; [exact Sw1|]. split; [exact Sv1|exact Q1].
      + unfold with_pin in E2. apply obind_ok in E2. destruct E2 as ([r1 c4] & E4 & [= <- <-]).
        apply (IH _ _ _ _ _ _ _ _ _ Swz Svz Hz Qz Dz) in E4; [|exact H3]. destruct E4 as (H4 & y & -> & Y). injection E as <- <-.
        split; [exact H4|]. exists y. auto.
  Qed.
  Lemma raw_combined n v b k2 k3 s t s' : word v -> uncomposed snap ar b ->
    combine_ast cfg snap (ops n) own (TLeaf (txt "->") (Some (Committed ar)) k2) (TLeaf v (Some (Committed b)) k3) s = Ok (t, s') ->
    (t_concept t = None /\ t_exp t = Some (TLeaf (txt "->") (Some (Committed ar)) k2, TLeaf v (Some (Committed b)) k3)) /\ s' = s.
  Proof.
    intros Wv U E. unfold combine_ast in E. apply sb in E. destruct E as (c & s1 & C & E).
    assert (c = None /\ s1 = s) as [-> ->].
    { unfold composition_concept in C. cbn [t_concept] in C. apply sb in C. destruct C as (m & s2 & R & C). apply read_ok in R.
      destruct R as [R ->]. injection C as <- <-. split; [|reflexivity]. unfold known in R.
      apply (wide_back cfg snap _ (WidensSame _)) in R. destruct R as (c & L & ->).
      cbn [m_find_as_hand mixed_of_committed ch_left aget]. unfold find_as_hand, hand_of.
      destruct (aget Nat.eqb b (lefthand_of c)) as [p|] eqn:A; [|reflexivity]. exfalso. apply (U p), LR. left. exists c. auto. }
    apply sb in E. destruct E as (j & s1 & E1 & [= <- <-]).
    unfold join in E1. apply sb in E1. destruct E1 as (x & s2 & E1 & [= <- <-]).
    unfold display_joint in E1. cbn [display] in E1. rewrite (word_blank _ Wv), (word_blank _ arrow_word) in E1.
    apply sb in E1. destruct E1 as (y & s1 & [= <- <-] & E1). apply sb in E1. destruct E1 as (y & s1 & [= <- <-] & [= <- <-]).
    unfold bind_pair, branch. match goal with |- context [pair_vars ?x ?y] => destruct (pair_vars x y) end. auto.
  Qed.
  (** The question as it is read. *)
  Definition raw_question (a b : nat) (t : tree) : Prop :=
    exists w v k1 k2 k3 u, sym w a /\ sym v b /\ t_concept t = None /\ t_exp t = Some (TLeaf w (Some (Committed a)) k1, u) /\
      t_concept u = None /\ t_exp u = Some (TLeaf (txt "->") (Some (Committed ar)) k2, TLeaf v (Some (Committed b)) k3).
  Lemma question_expanded n a b q s t s' : raw_question a b q -> good s ->
    o_expand (ops n) own q s = Ok (t, s') -> good s' /\ question_tree a b t.
  Proof.
    intros (w & v & k1 & k2 & k3 & u & Sw & Sv & Xc & Xe & Uc & Ue) G E.
    destruct n as [|n]; [discriminate|]. cbn [search step o_expand] in E. unfold expand in E. rewrite Xc, Xe in E.
    apply sb in E. destruct E as (l & s1 & E1 & E).
    destruct (own_expand cfg snap fuel F N LR extra _ _ _ _ _ _ _ (sym_elementary _ _ Sw) G E1) as [G1 La]. apply (own_read _ _ _ Sw) in La.
    apply sb in E. destruct E as (r & s2 & E2 & E).
    assert (P : good s2 /\ pair_tree ar b r).
    { destruct n as [|n]; [discriminate|]. cbn [search step o_expand] in E2. unfold expand in E2. rewrite Uc, Ue in E2.
      apply sb in E2. destruct E2 as (lo & s3 & E3 & E2).
      destruct (own_expand cfg snap fuel F N LR extra _ _ _ _ _ _ _ (sym_elementary _ _ ArW) G1 E3) as [G3 Lo]. apply (own_read _ _ _ ArW) in Lo.
      apply sb in E2. destruct E2 as (lb & s4 & E4 & E2).
      destruct (own_expand cfg snap fuel F N LR extra _ _ _ _ _ _ _ (sym_elementary _ _ Sv) G3 E4) as [G4 Lb]. apply (own_read _ _ _ Sv) in Lb.
      destruct (pair_combined _ _ _ _ _ _ _ _ _ _ ArW Sv (proj1 (ArP _ _ Sv)) Lo Lb E2) as [P ->]. auto. }
    destruct P as [G2 Pb]. destruct (question_combined _ _ _ _ _ _ _ _ _ _ Sw Sv La Pb G2 E) as [Q G3]. auto.
  Qed.
  Lemma question_rest a b w v y q0 c1 r c' : sym w a -> sym v b -> harmless a -> decided snap a b y -> raw_question a b q0 -> asked c1 ->
    cbind (c_expand cfg fuel q0) (fun t => cbind (fun c => obind (create_variable_concepts t c) (fun '(r, c) =>
      match r with Val t => Ok (Val t, c) | Fail _ => Panic "create_variable_concepts: unwrap" end)) (fun t => call cfg fuel t)) c1 = Ok (r, c') ->
    asked c' /\ exists x, r = Val x /\ worded y x.
  Proof.
    intros Sw Sv Ha De Rq H1 E. pose proof (search_clean cfg snap fuel fuel) as Cl. assert (S1 := proj1 H1).
    apply bind_back in E. destruct E as (t & c2 & E2 & E). unfold c_expand in E2.
    apply (asked_search cfg snap fuel extra _ (question_tree a b)) in E2; [|exact H1| |].
    2:{ unfold ops_of. rewrite S1. apply (oc_expand _ Cl). }
    2:{ intros s q s' G X. unfold ops_of in X. rewrite S1 in X. exact (question_expanded _ _ _ _ _ _ _ Rq G X). }
    destruct E2 as (H2 & t' & -> & Qt). apply bind_back in E. destruct E as (q & c3 & E2 & E).
    assert (q = Val t' /\ c3 = c2) as [-> ->].
    { destruct Qt as (w' & v' & l & rt & z & Sw' & _ & La & (wo & wb & l2 & r2 & So & Sb & Lo & Lb & ->) & _ & ->).
      destruct (sym_leaf _ _ _ Sw' La) as (k & -> & K1). destruct (sym_leaf _ _ _ So Lo) as (k' & -> & K2).
      destruct (sym_leaf _ _ _ Sb Lb) as (k'' & -> & K3).
      destruct k, k', k''; try congruence; cbn in E2; injection E2 as <- <-; auto. }
    exact (question_called _ _ _ _ _ _ _ _ _ _ Sw Sv Ha Qt De H2 E).
  Qed.
  Lemma question_run a b w v y c r c' : sym w a -> sym v b -> means snap w a -> means snap (txt "->") ar -> means snap v b ->
    harmless a -> decided snap a b y -> asked c -> run_command cfg fuel (question_of w v) c = Ok (r, c') ->
    asked c' /\ exists x, r = Val x /\ worded y x.
  Proof.
    intros Sw Sv Mw Mo Mv Ha De H E. unfold run_command in E. pose proof (search_clean cfg snap fuel fuel) as Cl.
    apply bind_back in E. destruct E as (t & c1 & E1 & E). assert (H' := H). destruct H' as (S & D & _). rewrite <- S in Mw, Mo, Mv.
    destruct (question_read _ _ _ _ _ _ _ _ _ _ _ F D Mw Mo Mv E1) as (k1 & k2 & k3 & x & N2 & E2 & ->).
    unfold ast_from_pair in E2. apply bind_back in E2. destruct E2 as (ty & c2 & E3 & E2).
    unfold c_concrete_type_of, c_concrete_type in E3. cbn [t_concept] in E3. apply lift_clean in E3; [|apply clean_type].
    destruct E3 as (-> & ty' & -> & _). cbn [is_leaf_variable] in E2. apply bind_back in E2. destruct E2 as (uu & c2 & E3 & E2).
    assert (uu = Val tt /\ c2 = c) as [-> ->].
    { destruct k2; try congruence; rewrite andb_false_r in E3; injection E3 as <- <-; auto. }
    unfold c_combine in E2.
    apply (asked_search cfg snap fuel extra _ (fun t => t_concept t = None /\
      t_exp t = Some (TLeaf (txt "->") (Some (Committed ar)) k2, TLeaf v (Some (Committed b)) k3))) in E2; [|exact H| |].
    2:{ unfold Parser.ops_of. rewrite S. apply combine_ast_clean, Cl. }
    2:{ intros s q s' G X. unfold Parser.ops_of in X. rewrite S in X.
        destruct (raw_combined _ _ _ _ _ _ _ _ (SyW _ _ Sv) (proj1 (ArP _ _ Sv)) X) as [Y ->]. auto. }
    destruct E2 as (H1 & u & -> & Uc & Ue). refine (question_rest _ _ _ _ _ _ _ _ _ Sw Sv Ha De _ H1 E).
    exists w, v, k1, k2, k3, u. unfold new_pair, branch. match goal with |- context [pair_vars ?x ?y] => destruct (pair_vars x y) end.
    repeat (split; [assumption || reflexivity|]). exact Ue.
  Qed.
  Lemma question_executed a b w v y c x c' : ready c -> sym w a -> sym v b -> means snap w a -> means snap (txt "->") ar -> means snap v b ->
    harmless a -> decided snap a b y -> asked c -> execute cfg fuel (question_of w v) c = Ok (x, c') ->
    worded y x /\ c_snap c' = snap /\ c_delta c' = delta_default /\
      good (start_state (c_cache c') (c_tick c')).
  Proof.
    intros Rd Sw Sv Mw Mo Mv Ha De H E. destruct (execute_run cfg fuel _ c x c' F Rd E) as (z & c1 & E1 & _ & An & _).
    destruct (question_run _ _ _ _ _ _ _ _ Sw Sv Mw Mo Mv Ha De H E1) as ((S1 & D1 & _ & G1) & x' & -> & Wx). split; [rewrite An; exact Wx|].
    destruct (execute_quiet _ _ _ _ _ _ _ _ Rd E E1) as (A1 & A2 & A3 & _); [unfold recorded; rewrite D1; reflexivity|].
    destruct H as (S & D & _). rewrite A1, A2, A3. split; [exact S|]. split; [exact D|]. exact G1.
  Qed.

  (** *** Without brackets *)
  Lemma asked_shuffle A (l : list A) c r c' : asked c -> c_shuffle cfg l c = Ok (r, c') -> asked c'.
  Proof.
    intros H E. unfold c_shuffle in E. apply (asked_search cfg snap fuel extra _ (fun _ => True)) in E; [apply E|exact H| |].
    - intros s e X. discriminate X.
    - intros s a s' G X. split; [exact (proj1 (shuffle_good _ _ _ _ G X))|exact I].
  Qed.
  Lemma arrow_right t c r c' : read_leaf ar t -> asked c -> c_assoc cfg fuel t c = Ok (r, c') -> asked c' /\ r = Val ARight.
  Proof.
    intros Lf H E. unfold c_assoc in E. assert (S := proj1 H). pose proof (search_clean cfg snap fuel fuel) as Cl.
    apply (asked_search cfg snap fuel extra _ (fun a => a = ARight)) in E; [|exact H| |].
    - destruct E as (H1 & a & -> & ->). auto.
    - unfold Parser.ops_of. rewrite S. apply (oc_assoc _ Cl).
    - intros s a s' G X. unfold Parser.ops_of in X. rewrite S in X. exact (arrow_assoc _ _ _ _ _ Lf G X).
  Qed.
  Lemma pair_parts l r : t_concept (new_pair l r) = None /\ t_exp (new_pair l r) = Some (l, r) /\ display (new_pair l r) = display l ++ c_space :: display r.
  Proof. unfold new_pair, branch. match goal with |- context [pair_vars ?x ?y] => destruct (pair_vars x y) end. auto. Qed.
  Lemma raw_joined n w a k1 lo lv s t s' : sym w a -> read_leaf ar lo -> good s ->
    combine_ast cfg snap (ops n) own (TLeaf w (Some (Committed a)) k1) (new_pair lo lv) s = Ok (t, s') ->
    good s' /\ t_concept t = None /\ t_exp t = Some (TLeaf w (Some (Committed a)) k1, new_pair lo lv).
  Proof.
    intros Sw Lo G E. destruct (pair_parts lo lv) as (Uc & Ue & Ud). revert E Uc Ue Ud. generalize (new_pair lo lv) as u. intros u E Uc Ue Ud.
    unfold combine_ast in E. apply sb in E. destruct E as (c & s1 & C & E).
    unfold composition_concept in C. cbn [t_concept] in C. rewrite Uc in C. injection C as <- <-.
    apply sb in E. destruct E as (j & s1 & E1 & [= <- <-]). unfold join in E1. apply sb in E1. destruct E1 as (x & s2 & E1 & [= <- <-]).
    assert (G2 : good s2).
    { unfold display_joint in E1. rewrite Ud in E1.
      assert (W : existsb is_whitespace (display lo ++ c_space :: display lv) = true).
      { rewrite existsb_app. cbn [existsb]. apply orb_true_iff. right. reflexivity. }
      rewrite W, Ue in E1. cbn [display] in E1. rewrite (word_blank _ (SyW _ _ Sw)) in E1.
      apply sb in E1. destruct E1 as (y & s1 & [= <- <-] & E1). apply sb in E1. destruct E1 as (y & s1 & E1 & [= <- <-]).
      apply sb in E1. destruct E1 as (a' & s3 & E1 & [= <- <-]). exact (proj1 (arrow_assoc _ _ _ _ _ Lo G E1)). }
    split; [exact G2|]. unfold bind_pair, branch. match goal with |- context [pair_vars ?x ?y] => destruct (pair_vars x y) end. auto.
  Qed.
  Lemma question_flat_run p a b w v y c r c' :
    concrete_concept_id cfg snap delta_default CPrecedes = Ok (Some (Committed p)) ->
    (forall a b, built_in snap a CPrecedes -> built_in snap b CPrecedes -> a = b) ->
    ranked snap ar -> ~ ranked snap a -> ~ ranked snap b ->
    sym w a -> sym v b -> means snap w a -> means snap (txt "->") ar -> means snap v b ->
    harmless a -> decided snap a b y -> asked c -> run_command cfg fuel (joined [w; txt "->"; v]) c = Ok (r, c') ->
    asked c' /\ exists x, r = Val x /\ worded y x.
  Proof.
    intros CP UP Rar Ra Rb Sw Sv Mw Mo Mv Ha De H E. unfold run_command in E. pose proof (search_clean cfg snap fuel fuel) as Cl.
    apply bind_back in E. destruct E as (t & c1 & E1 & E). assert (H' := H). destruct H' as (S & D & _). rewrite <- S in Mw, Mo, Mv.
    apply (flat_read _ _ _ _ _ _ _ _ D) in E1.
    2:{ repeat (apply Forall_cons; [first [exact (SyW _ _ Sw)|exact arrow_word|exact (SyW _ _ Sv)]|]). apply Forall_nil. }
    destruct E1 as (kinds & K & E1). apply bind_back in E1. destruct E1 as (ts & c2 & E2 & E1).
    apply (flat_leaves cfg fuel _ [a; ar; b]) in E2; [|exact F|exact D| |exact K].
    2:{ repeat (apply Forall2_cons; [assumption|]). apply Forall2_nil. }
    destruct E2 as (-> & ts' & -> & W). cbn [combine] in W.
    inversion W as [|? t1 ? l1 (k1 & Q1 & N1) W1]; subst. inversion W1 as [|? t2 ? l2 (k2 & Q2 & N2) W2]; subst.
    inversion W2 as [|? t3 ? l3 (k3 & Q3 & N3) W3]; subst. inversion W3; subst. cbn [fst snd] in *.
    set (tw := TLeaf w (Some (Committed a)) k1) in *. set (to := TLeaf (txt "->") (Some (Committed ar)) k2) in *.
    set (tv := TLeaf v (Some (Committed b)) k3) in *.
    assert (Lo : read_leaf ar to) by (exists (txt "->"), k2; auto).
    unfold parse_list in E1. cbn [length] in E1. rewrite long_list in E1.
    apply bind_back in E1. destruct E1 as (info & c2 & E2 & E1).
    apply (lowest_one cfg fuel F asked asked_shuffle _ (Some (Committed ar))) in E2; [|exact H| | |].
    2:{ intros t0 x J X R. apply (related_ranked cfg _ F LR HK BI _ _ S D) in R. destruct R as (k & -> & R).
        destruct J as [<-|[<-|[<-|[]]]]; cbn in X; injection X as <-; [destruct (Ra R)|reflexivity|destruct (Rb R)]. }
    2:{ intros x [= <-]. split; [exact (ranked_related cfg _ F LC BI _ _ _ S D CP UP Rar)|]. exists to. cbn. auto. }
    2:{ intros t0 [<-|[<-|[<-|[]]]]; discriminate. }
    destruct E2 as (H2 & i & -> & SY & PO).
    assert (PO' : forall j, In j (ts_positions i) <-> j = 1).
    { intros j. rewrite PO. split.
      - intros (t0 & T & X). destruct j as [|[|[|j]]]; cbn in T; try (injection T as <-); cbn in X.
        + injection X as ->. destruct (Ra Rar).
        + reflexivity.
        + injection X as ->. destruct (Rb Rar).
        + destruct j; discriminate T.
      - intros ->. exists to. auto. }
    destruct (ts_positions i) as [|p0 ps] eqn:PS; [destruct (proj2 (PO' 1) eq_refl)|]. rewrite <- PS in *.
    apply bind_back in E1. destruct E1 as (as' & c3 & E2 & E1).
    assert (Ps1 : Forall (fun j => j = 1) (ts_positions i)) by (apply Forall_forall; intros j; apply PO').
    apply (common_right cfg fuel asked (read_leaf ar) arrow_right) in E2; [| |discriminate|exact H2].
    2:{ rewrite SY. clear - Ps1 Lo. induction Ps1 as [|j js -> _ IH]; [constructor|]. cbn. constructor; [exact Lo|exact IH]. }
    destruct E2 as (H3 & o & -> & B).
    assert (o = Some ARight) as ->.
    { apply B. right. rewrite SY, PS. rewrite PS in Ps1. inversion Ps1; subst. discriminate. }
    apply bind_back in E1. destruct E1 as (st & c4 & E2 & E1).
    assert (st = Val (Some 1, Some (new_pair to tv, 1)) /\ c4 = c3) as [-> ->].
    { assert (HP : Forall (fun j => j = 1) (heap_pops (ts_positions i))) by (apply Forall_forall; intros j J; apply PO', heap_pops_in, J).
      assert (HN : heap_pops (ts_positions i) <> []).
      { intros X. pose proof (proj2 (heap_pops_in _ 1) (proj2 (PO' 1) eq_refl)) as J. rewrite X in J. destruct J. }
      destruct (heap_pops (ts_positions i)) as [|j js]; [congruence|]. inversion HP as [|? ? -> HP']; subst.
      cbn [fold_right_assoc option_eqb] in E2. apply bind_back in E2. destruct E2 as (x & c5 & E3 & E2).
      unfold try_fold_handler in E3. cbn [option_map slice_tokens] in E3. apply bind_back in E3. destruct E3 as (sl & c6 & E4 & E3).
      injection E4 as <- <-. cbn in E3. injection E3 as <- <-.
      clear - E2 HP'. induction HP' as [|j js -> _ IH]; cbn in E2; [injection E2 as <- <-; auto|]. exact (IH E2). }
    clear E2. cbn [Nat.eqb] in E1. apply bind_back in E1. destruct E1 as (hd & c4 & E2 & E1).
    cbn in E2. injection E2 as <- <-. unfold c_combine in E1. assert (S3 := proj1 H3).
    apply (asked_search cfg snap fuel extra _ (fun t => t_concept t = None /\ t_exp t = Some (tw, new_pair to tv))) in E1; [|exact H3| |].
    2:{ unfold Parser.ops_of. rewrite S3. apply combine_ast_clean, Cl. }
    2:{ intros s q s' G X. unfold Parser.ops_of in X. rewrite S3 in X. exact (raw_joined _ _ _ _ _ _ _ _ _ Sw Lo G X). }
    destruct E1 as (H4 & u & -> & Uc & Ue). refine (question_rest _ _ _ _ _ _ _ _ _ Sw Sv Ha De _ H4 E).
    destruct (pair_parts to tv) as (Pc & Pe & _).
    exists w, v, k1, k2, k3, (new_pair to tv). repeat (split; [assumption|]). assumption.
  Qed.
  Lemma question_flat_executed p a b w v y c x c' : ready c ->
    concrete_concept_id cfg snap delta_default CPrecedes = Ok (Some (Committed p)) ->
    (forall a b, built_in snap a CPrecedes -> built_in snap b CPrecedes -> a = b) ->
    ranked snap ar -> ~ ranked snap a -> ~ ranked snap b ->
    sym w a -> sym v b -> means snap w a -> means snap (txt "->") ar -> means snap v b ->
    harmless a -> decided snap a b y -> asked c -> execute cfg fuel (joined [w; txt "->"; v]) c = Ok (x, c') ->
    worded y x /\ c_snap c' = snap /\ c_delta c' = delta_default /\
      good (start_state (c_cache c') (c_tick c')).
  Proof.
    intros Rd CP UP Rar Ra Rb Sw Sv Mw Mo Mv Ha De H E. destruct (execute_run cfg fuel _ c x c' F Rd E) as (z & c1 & E1 & _ & An & _).
    destruct (question_flat_run _ _ _ _ _ _ _ _ _ CP UP Rar Ra Rb Sw Sv Mw Mo Mv Ha De H E1) as ((S1 & D1 & _ & G1) & x' & -> & Wx). split; [rewrite An; exact Wx|].
    destruct (execute_quiet _ _ _ _ _ _ _ _ Rd E E1) as (A1 & A2 & A3 & _); [unfold recorded; rewrite D1; reflexivity|].
    destruct H as (S & D & _). rewrite A1, A2, A3. split; [exact S|]. split; [exact D|]. exact G1.
  Qed.
End Store.
