(** Expressions in which some brackets are left out: how they are written and read. *)
From Verif Require Import Lexer LexerSpec LexerFacts Nester NesterSpec NesterFacts CommandFacts Grouping.
From Verif Require Import Snapshot Search Context StoreSpec MapFacts AstFacts StoreFacts RangeFacts Meaning SearchCaches Wide Displays Implications Asking Spelled Replies Keyed Flat.
From Coq Require Import String List PeanoNat Lia Bool Permutation.
Import ListNotations.
Local Open Scope zia_scope.

(** ** Specification *)
(** Words, and groups of words and other groups. *)
Inductive outline := Term (w : text) | Several (os : list outline).
(** A group within another is written in brackets, with one space between its parts. *)
Fixpoint drawn (o : outline) : text :=
  match o with
  | Term w => w
  | Several os => [c_open] ++ joined (map drawn os) ++ [c_close]
  end.
(** The command: no brackets around the whole. *)
Definition outlined (os : list outline) : text := joined (map drawn os).
Fixpoint terms_of (o : outline) : list text :=
  match o with Term w => [w] | Several os => concat (map terms_of os) end.
Definition all_terms (os : list outline) : list text := concat (map terms_of os).
(** Each group has two parts or more. *)
Inductive sized : outline -> Prop :=
| SizedTerm w : sized (Term w)
| SizedSeveral os : le 2 (List.length os) -> (forall o, In o os -> sized o) -> sized (Several os).
(** Each group has two parts, or a word among them. *)
Inductive unambiguous : outline -> Prop :=
| ClearTerm w : unambiguous (Term w)
| ClearSeveral os : List.length os = 2 \/ (exists w, In (Term w) os) -> (forall o, In o os -> unambiguous o) -> unambiguous (Several os).

(** ** Induction *)
Section Induction.
  Variables (P : outline -> Prop) (Q : list outline -> Prop).
  Hypothesis HT : forall w, P (Term w).
  Hypothesis HS : forall os, Q os -> P (Several os).
  Hypothesis HN : Q [].
  Hypothesis HC : forall o os, P o -> Q os -> Q (o :: os).
  Fixpoint outline_one (o : outline) : P o :=
    match o with
    | Term w => HT w
    | Several os => HS os ((fix all (os : list outline) : Q os :=
        match os with [] => HN | o :: os => HC o os (outline_one o) (all os) end) os)
    end.
  Lemma outline_all os : Q os.
  Proof. induction os as [|o os IH]; [exact HN|]. apply HC; [apply outline_one|exact IH]. Qed.
  Lemma outline_both : (forall o, P o) /\ forall os, Q os.
  Proof. split; [apply outline_one|apply outline_all]. Qed.
End Induction.
Lemma sized_parts os : sized (Several os) -> le 2 (List.length os) /\ forall o, In o os -> sized o.
Proof. intros H. inversion H; auto. Qed.
Definition is_term (o : outline) : bool := match o with Term _ => true | Several _ => false end.
Lemma some_term os : existsb is_term os = true <-> exists w, In (Term w) os.
Proof.
  rewrite existsb_exists. split; [intros ([w|] & J & T); [eauto|discriminate]|intros (w & J); exists (Term w); auto].
Qed.

(** ** Tokens *)
Fixpoint spaced (l : list (list (char_class * text))) : list (char_class * text) :=
  match l with [] => [] | [x] => x | x :: l => x ++ (ClSpace, [c_space]) :: spaced l end.
Fixpoint marks (o : outline) : list (char_class * text) :=
  match o with
  | Term w => [(ClSymbol, w)]
  | Several os => (ClOpen, [c_open]) :: spaced (map marks os) ++ [(ClClose, [c_close])]
  end.
Lemma spaced_more x y l : spaced (x :: y :: l) = x ++ (ClSpace, [c_space]) :: spaced (y :: l).
Proof. reflexivity. Qed.
Lemma joined_more' x y l : joined (x :: y :: l) = x ++ c_space :: joined (y :: l).
Proof. reflexivity. Qed.
Lemma marks_text : (forall o, concat (map snd (marks o)) = drawn o) /\ forall os, concat (map snd (spaced (map marks os))) = outlined os.
Proof.
  apply outline_both.
  - intros w. apply app_nil_r.
  - intros os IH. cbn [marks map concat snd drawn]. rewrite map_app, concat_app, IH. reflexivity.
  - reflexivity.
  - intros o os Ho IH. unfold outlined in *. destruct os as [|o' os]; [exact Ho|]. cbn [map] in *. rewrite spaced_more, joined_more', map_app, concat_app, Ho.
    cbn [map concat snd]. rewrite IH. reflexivity.
Qed.
Lemma marks_are : (forall o, Forall word (terms_of o) -> forall k t, In (k, t) (marks o) -> is_token k t) /\
  forall os, Forall word (all_terms os) -> forall k t, In (k, t) (spaced (map marks os)) -> is_token k t.
Proof.
  assert (B : forall k c, class_of c = k -> k = ClOpen \/ k = ClClose \/ k = ClSpace -> is_token k [c]).
  { intros k c E _. split; [discriminate|]. split; [intros x [<-|[]]; exact E|reflexivity]. }
  apply outline_both.
  - intros w H k t [[= <- <-]|[]]. inversion H as [|? ? [N C] _]; subst. split; [exact N|]. split; [exact C|]. intros [|]; discriminate.
  - intros os IH H k t. cbn [marks]. intros [[= <- <-]|J]; [apply B; auto|]. apply in_app_or in J.
    destruct J as [J|[[= <- <-]|[]]]; [exact (IH H _ _ J)|apply B; auto].
  - intros _ k t [].
  - intros o os Ho IH H k t. unfold all_terms in *. cbn [map concat] in *. apply Forall_app in H. destruct H as [H1 H2].
    destruct os as [|o' os]; [exact (Ho H1 k t)|]. cbn [map] in *. rewrite spaced_more. intros J. apply in_app_or in J.
    destruct J as [J|[[= <- <-]|J]]; [exact (Ho H1 _ _ J)|apply B; auto|exact (IH H2 _ _ J)].
Qed.
Lemma marks_distinct : (forall o, sized o -> forall q rest, (q = None \/ q = Some ClOpen \/ q = Some ClSpace) ->
    (forall e, e = ClSymbol \/ e = ClClose -> distinct (Some e) rest) -> distinct q (map fst (marks o) ++ rest)) /\
  forall os, (forall o, In o os -> sized o) -> os <> [] -> forall q rest, (q = None \/ q = Some ClOpen \/ q = Some ClSpace) ->
    (forall e, e = ClSymbol \/ e = ClClose -> distinct (Some e) rest) -> distinct q (map fst (spaced (map marks os)) ++ rest).
Proof.
  apply outline_both.
  - intros w _ q rest Q H. cbn [marks map fst app]. split; [destruct Q as [->|[->| ->]]; discriminate|apply H; auto].
  - intros os IH S q rest Q H. apply sized_parts in S. destruct S as [L S]. cbn [marks map fst app]. split; [auto|].
    rewrite map_app, <- app_assoc. apply IH; [exact S|destruct os; [cbn in L; lia|discriminate]|auto|].
    intros e Ee. cbn [map fst app]. split; [auto|]. apply H. auto.
  - intros _ K. congruence.
  - intros o os Ho IH S _ q rest Q H. destruct os as [|o' os]; [exact (Ho (S o (or_introl eq_refl)) q rest Q H)|].
    cbn [map] in *. rewrite spaced_more, map_app, <- app_assoc. apply Ho; [apply S; left; reflexivity|exact Q|].
    intros e Ee. cbn [map fst app]. split; [destruct Ee as [->| ->]; discriminate|]. apply IH; [intros x J; apply S; right; exact J|discriminate|auto|exact H].
Qed.
Lemma outlined_tokenisation os : Forall word (all_terms os) -> (forall o, In o os -> sized o) -> os <> [] ->
  tokenisation (outlined os) (spaced (map marks os)).
Proof.
  intros H S N. split; [apply marks_text|]. split; [exact (proj2 marks_are os H)|]. apply (distinct_no_merge _ None).
  rewrite <- (app_nil_r (map fst _)). apply (proj2 marks_distinct); [exact S|exact N|auto|]. intros; exact I.
Qed.

(** ** Brackets *)
Section Kinds.
  Variable kf : text -> outcome concept_kind.
  Inductive item_for : outline -> item -> Prop :=
  | ItemTerm w k : kf w = Ok k -> item_for (Term w) (Atom k w)
  | ItemSeveral os is : items_for os is -> item_for (Several os) (Group is)
  with items_for : list outline -> list item -> Prop :=
  | ItemsNone : items_for [] []
  | ItemsMore o i os is : item_for o i -> items_for os is -> items_for (o :: os) (i :: is).
  Lemma marks_read : (forall o ls, cats_ok kf ls -> view ls = marks o -> exists i, item_for o i /\ toks ls = render1 i) /\
    forall os ls, cats_ok kf ls -> view ls = spaced (map marks os) -> exists is, items_for os is /\ toks ls = flat_map render1 is.
  Proof.
    unfold view. apply outline_both.
    - intros w ls C V. destruct ls as [|x [|y ls]]; try discriminate V. injection V as V1 V2.
      pose proof (C x) as K. destruct x as [tx cx]. cbn in *. subst tx. destruct cx as [k| | |]; try discriminate V1.
      exists (Atom k w). split; [|reflexivity]. constructor. apply K; auto.
    - intros os IH ls C V. cbn [marks] in V. apply map_eq_cons in V. destruct V as (x & l1 & -> & Vx & V).
      apply map_eq_app in V. destruct V as (la & l2 & -> & Va & V). apply map_eq_cons in V. destruct V as (z & l5 & -> & Vz & V).
      apply map_eq_nil in V. subst l5.
      destruct (IH la) as (is & Ia & Ta); [|exact Va|].
      { intros l k J. apply C. right. apply in_or_app. auto. }
      exists (Group is). split; [constructor; exact Ia|].
      assert (Ox : tok_of x = [TOpen]) by (unfold view1, tok_of in *; destruct (lx_cat x); try discriminate Vx; reflexivity).
      assert (Oz : tok_of z = [TClose]) by (unfold view1, tok_of in *; destruct (lx_cat z); try discriminate Vz; reflexivity).
      rewrite toks_cons, toks_app, toks_cons, Ox, Oz, Ta. reflexivity.
    - intros ls _ V. apply map_eq_nil in V. subst ls. exists []. split; [constructor|reflexivity].
    - intros o os Ho IH ls C V. destruct os as [|o' os].
      + destruct (Ho ls C V) as (i & Hi & Ti). exists [i]. split; [constructor; [exact Hi|constructor]|]. rewrite Ti. cbn. symmetry. apply app_nil_r.
      + cbn [map] in *. rewrite spaced_more in V. apply map_eq_app in V. destruct V as (la & l2 & -> & Va & V).
        apply map_eq_cons in V. destruct V as (y & lb & -> & Vy & Vb).
        destruct (Ho la) as (i & Hi & Ti); [intros l k J; apply C, in_or_app; auto|exact Va|].
        destruct (IH lb) as (is & His & Tis); [intros l k J; apply C, in_or_app; right; right; exact J|exact Vb|].
        exists (i :: is). split; [constructor; assumption|].
        assert (Oy : tok_of y = []) by (unfold view1, tok_of in *; destruct (lx_cat y); try discriminate Vy; reflexivity).
        rewrite toks_app, toks_cons, Oy, Ti, Tis. reflexivity.
  Qed.
  Lemma items_length os is : items_for os is -> List.length is = List.length os.
  Proof. induction 1 as [|o i os is _ _ IH]; [reflexivity|]. cbn. congruence. Qed.
  Lemma items_nonempty : (forall o, sized o -> forall i, item_for o i -> nonempty_groups [i]) /\
    forall os, (forall o, In o os -> sized o) -> forall is, items_for os is -> nonempty_groups is.
  Proof.
    apply outline_both.
    - intros w _ i H. inversion H; subst. constructor. constructor.
    - intros os IH S i H. inversion H as [|? is K]; subst. apply sized_parts in S. destruct S as [L S]. constructor; [|exact (IH S _ K)|constructor].
      apply items_length in K. intros ->. cbn in K. lia.
    - intros _ is H. inversion H. constructor.
    - intros o os Ho IH S is H. inversion H as [|? i ? is' K K']; subst.
      apply (nonempty_groups_app [i] is'); [exact (Ho (S o (or_introl eq_refl)) _ K)|exact (IH (fun x J => S x (or_intror J)) _ K')].
  Qed.
  (** What is read of each part. *)
  Inductive shapes : outline -> nested -> Prop :=
  | ShapesTerm w k : kf w = Ok k -> shapes (Term w) (from_concept_kind k w)
  | ShapesSeveral os ns s : shapes_all os ns -> shapes (Several os) (NParent ns s)
  | ShapesIn o n s : shapes o n -> shapes o (NParent [n] s)
  with shapes_all : list outline -> list nested -> Prop :=
  | ShapesNone : shapes_all [] []
  | ShapesMore o n os ns : shapes o n -> shapes_all os ns -> shapes_all (o :: os) (n :: ns).
  Scheme shapes_mind := Minimality for shapes Sort Prop
  with shapes_all_mind := Minimality for shapes_all Sort Prop.
  Lemma built_shapes o i os is : (exists n, heads (item_node i) = [n] /\ shapes o n) -> shapes_all os (map item_node is) -> os <> [] ->
    exists ns s, build (i :: is) = NParent ns s /\ shapes_all (o :: os) ns.
  Proof.
    intros (n & Hn & Sn) Ss N. cbn [build]. destruct (fold_heads (map item_node is) (item_node i)) as (s & E).
    { intros X. rewrite X in Ss. inversion Ss. congruence. }
    rewrite E, Hn. exists (n :: map item_node is), s. split; [reflexivity|]. constructor; assumption.
  Qed.
  Lemma item_shapes : (forall o, sized o -> forall i, item_for o i -> shapes o (item_node i) /\ exists n, heads (item_node i) = [n] /\ shapes o n) /\
    forall os, (forall o, In o os -> sized o) -> forall is, items_for os is -> shapes_all os (map item_node is) /\
      (le 2 (List.length os) -> exists ns s, build is = NParent ns s /\ shapes_all os ns).
  Proof.
    apply outline_both.
    - intros w _ i H. inversion H as [? k K|]; subst. pose proof (ShapesTerm w k K) as X. split; [exact X|]. exists (from_concept_kind k w). auto.
    - intros os IH S i H. inversion H as [|? is K]; subst. apply sized_parts in S. destruct S as [L S]. destruct (IH S _ K) as [_ B].
      destruct (B L) as (ns & s & E & Sh). rewrite item_node_group, E. pose proof (ShapesSeveral os ns s Sh) as X.
      split; [apply ShapesIn, X|]. eexists. split; [reflexivity|exact X].
    - intros _ is H. inversion H. split; [constructor|]. cbn. lia.
    - intros o os Ho IH S is H. inversion H as [|? i ? is' K K']; subst. destruct (Ho (S o (or_introl eq_refl)) _ K) as [X Y].
      destruct (IH (fun x J => S x (or_intror J)) _ K') as [X' _]. split; [constructor; assumption|]. intros L.
      apply built_shapes; [exact Y|exact X'|]. intros ->. cbn in L. lia.
  Qed.
End Kinds.
(** Each part is read by itself, then the list of them. *)
Lemma outlined_read cfg fuel os c r c' : c_delta c = delta_default -> Forall word (all_terms os) -> sized (Several os) ->
  ast_from_expression cfg fuel (outlined os) c = Ok (r, c') ->
  exists ns s, shapes_all (kind_of_symbol cfg fuel c) os ns /\
    cbind (syntax_list_for_nested_syntax cfg fuel (NParent ns s)) (parse_list cfg fuel) c = Ok (r, c').
Proof.
  intros D H S E. apply sized_parts in S. destruct S as [L S]. assert (NE : os <> []) by (destruct os; [cbn in L; lia|discriminate]).
  unfold ast_from_expression, c_lex, c_nest in E.
  apply bind_back in E. destruct E as (ls & c2 & E1 & E).
  apply lift_clean in E1; [|apply clean_lex; intros t; apply clean_kind, D].
  destruct E1 as (-> & ls' & -> & Lx).
  pose proof (tokenisation_unique_lemma _ _ _ (lex_tokenisation_lemma _ _ _ Lx) (outlined_tokenisation _ H S NE)) as V.
  assert (C : cats_ok (kind_of_symbol cfg fuel c) ls') by (intros l k; apply (lex_categories_lemma _ _ _ l k Lx)).
  destruct (proj2 (marks_read _) _ _ C V) as (is & K & T).
  apply bind_back in E. destruct E as (n & c2 & E2 & E). unfold clift in E2.
  destruct (proj2 (item_shapes _) _ S _ K) as [_ B]. destruct (B L) as (ns & s & Eb & Sh).
  assert (WB : well_bracketed (toks ls') is).
  { split; [|split; [exact (proj2 (items_nonempty _) _ S _ K)|exact T]]. apply items_length in K. intros ->. cbn in K. lia. }
  rewrite (nest_complete _ _ WB), Eb in E2. injection E2 as <- <-. exists ns, s. auto.
Qed.

(** ** Lists of words and groups *)
Section Lists.
  Variables (cfg : config) (fuel : nat).
  Hypothesis F : fair cfg.
  Variable Inv : ctx -> Prop.
  Hypothesis InvShuffle : forall A (l : list A) c r c', Inv c -> c_shuffle cfg l c = Ok (r, c') -> Inv c'.
  (** No precedence is declared for any of the words. *)
  Lemma lowest_any ts c r c' : Inv c -> (forall t x, In t ts -> t_concept t = Some x -> ~ related cfg c x) ->
    lowest_precedence_info cfg fuel ts c = Ok (r, c') ->
    Inv c' /\ exists info, r = Val info /\ (forall i, In i (ts_positions info) <-> lt i (List.length ts)) /\
      (exists ps, ts_syntax info = syntax_at ts ps) /\ (ts_syntax info = [] <-> forall t, In t ts -> t_concept t = None).
  Proof.
    intros H U E. unfold lowest_precedence_info in E.
    apply bind_back in E. destruct E as (p & c1 & E1 & E). unfold c_concrete_id in E1. apply lift_clean in E1; [|apply clean_concrete_id].
    destruct E1 as (-> & p' & -> & CP). apply bind_back in E. destruct E as (q & c1 & E2 & E).
    destruct p' as [p|]; [|discriminate E2]. injection E2 as <- <-.
    apply bind_back in E. destruct E as (m & c1 & E2 & E). unfold c_read in E2. apply lift_clean in E2; [|apply clean_read].
    destruct E2 as (-> & m' & -> & RM). apply bind_back in E. destruct E as (rel & c1 & E3 & E). apply related_read in E3.
    destruct E3 as (-> & l & -> & _ & L).
    assert (l = []) as ->.
    { destruct l as [|x l]; [reflexivity|]. exfalso. destruct (proj1 (L x) (or_introl eq_refl)) as [[]|(J & y & comp & J' & O)].
      apply concept_ids_in in J. destruct J as (t & T & X). apply (U t x T X). exists p, m', y, comp. auto. }
    apply bind_back in E. destruct E as (ord & c1 & E4 & E). pose proof (InvShuffle _ _ _ _ _ H E4) as H1.
    apply (shuffle_run _ F) in E4. destruct E4 as (l & -> & PM & _).
    apply Permutation_sym, Permutation_nil in PM. subst l. cbn [lowest_concepts] in E.
    apply bind_back in E. destruct E as (low & c2 & E5 & E). injection E5 as <- <-.
    apply bind_back in E. destruct E as (ps & c4 & E8 & E). pose proof (positions_kept cfg F Inv InvShuffle _ _ _ _ _ H1 E8) as H4.
    apply (positions_run _ F) in E8. destruct E8 as (l & -> & P & _).
    assert (FI : filter (fun c0 : cid => negb (smem cid_eqb c0 [])) (concept_ids ts) = concept_ids ts).
    { clear. induction (concept_ids ts) as [|a l IH]; [reflexivity|]. exact (f_equal (cons a) IH). }
    rewrite FI in P. injection E as <- <-. split; [exact H4|]. eexists. split; [reflexivity|]. cbn [ts_positions ts_syntax].
    assert (P' : forall i, In i l <-> exists t x, nth_error ts i = Some t /\ t_concept t = Some x).
    { intros i. rewrite P. split.
      - intros (x & _ & I). apply indices_of_in in I. destruct I as (t & T & X). eauto.
      - intros (t & x & T & X). exists x. split; [apply concept_ids_in; exists t; split; [exact (nth_error_In _ _ T)|exact X]|].
        apply indices_of_in. eauto. }
    split; [|split; [exists l; reflexivity|]].
    - intros i. rewrite in_app_iff, indices_without_in, P'. split.
      + intros [(t & T & _)|(t & x & T & _)]; apply nth_error_Some; congruence.
      + intros LT. apply nth_error_Some in LT. destruct (nth_error ts i) as [t|]; [|congruence].
        destruct (t_concept t) as [x|] eqn:X; [right|left]; eauto.
    - split.
      + intros Z t J. destruct (t_concept t) as [x|] eqn:X; [|reflexivity]. exfalso. apply In_nth_error in J. destruct J as (i & T).
        assert (J : In i l) by (apply P'; eauto). apply in_split in J. destruct J as (l1 & l2 & ->).
        unfold syntax_at in Z. rewrite flat_map_app in Z. cbn [flat_map] in Z. rewrite T in Z. apply app_eq_nil in Z. destruct Z as [_ Z]. discriminate Z.
      + intros A. destruct l as [|i l]; [reflexivity|]. destruct (proj1 (P' i) (or_introl eq_refl)) as (t & x & T & X).
        rewrite (A t (nth_error_In _ _ T)) in X. discriminate X.
  Qed.
  Variable One : tree -> Prop.
  Hypothesis OneAssoc : forall t c r c', One t -> Inv c -> c_assoc cfg fuel t c = Ok (r, c') -> Inv c' /\ r = Val ARight.
  Variable Built : list tree -> tree -> Prop.
  Hypothesis BuiltOne : forall t, One t -> Built [t] t.
  Hypothesis BuiltMore : forall l ts r c x c', One l -> Built ts r -> Inv c -> c_combine cfg fuel l r c = Ok (x, c') ->
    Inv c' /\ exists t, x = Val t /\ Built (l :: ts) t.
  Lemma any_list t1 t2 t3 ts c r c' : let l := t1 :: t2 :: t3 :: ts in
    Forall One l -> Inv c -> (forall t x, In t l -> t_concept t = Some x -> ~ related cfg c x) ->
    parse_list cfg fuel l c = Ok (r, c') -> Inv c' /\
      ((exists t, r = Val t /\ Built l t /\ exists u, In u l /\ t_concept u <> None) \/
       (r = Fail AmbiguousExpression /\ forall u, In u l -> t_concept u = None)).
  Proof.
    cbn zeta. intros O H U E. unfold parse_list in E. rewrite long_list in E. set (l := t1 :: t2 :: t3 :: ts) in *.
    apply bind_back in E. destruct E as (info & c1 & E1 & E).
    apply (lowest_any l) in E1; [|exact H|exact U].
    destruct E1 as (H1 & i & -> & PO & (ps & SY) & SN).
    destruct (ts_positions i) as [|p0 ps0] eqn:PS; [destruct (proj2 (PO 0)); cbn; lia|]. rewrite <- PS in *.
    apply bind_back in E. destruct E as (a & c2 & E2 & E).
    destruct (ts_syntax i) as [|u us] eqn:SE.
    { cbn [common_associativity] in E2. injection E2 as <- <-. injection E as <- <-. split; [exact H1|]. right. split; [reflexivity|]. apply SN. reflexivity. }
    apply (common_right cfg fuel Inv One OneAssoc) in E2; [|rewrite SY; apply syntax_all, O|discriminate|exact H1].
    destruct E2 as (H2 & b & -> & B). assert (b = Some ARight) as -> by (apply B; right; discriminate).
    apply bind_back in E. destruct E as (st & c3 & E3 & E).
    apply (flat_all cfg fuel Inv One Built BuiltOne BuiltMore) in E3; [| |cbn; lia|exact O|apply heap_pops_desc| |exact H2].
    - destruct E3 as (H3 & t & -> & Bt). cbn in E. injection E as <- <-. split; [exact H3|]. left. exists t. split; [reflexivity|]. split; [exact Bt|].
      destruct (existsb (fun t => match t_concept t with Some _ => true | None => false end) l) eqn:X.
      + apply existsb_exists in X. destruct X as (v & J & X). exists v. split; [exact J|]. destruct (t_concept v); [discriminate|discriminate X].
      + exfalso. assert (Z : u :: us = []); [|discriminate Z]. apply SN. intros v J. destruct (t_concept v) as [y|] eqn:Y; [|reflexivity].
        assert (Z : existsb (fun t => match t_concept t with Some _ => true | None => false end) l = true) by (apply existsb_exists; exists v; rewrite Y; auto). congruence.
    - reflexivity.
    - intros j. rewrite heap_pops_in. apply PO.
  Qed.
End Lists.
