(** Commands in which every pair is bracketed: how they are written and read. *)
From Verif Require Import Lexer LexerSpec LexerFacts Nester NesterSpec NesterFacts CommandFacts Parser Context StoreFacts RangeFacts
  Displays Grouping.
From Coq Require Import String List PeanoNat Lia.
Import ListNotations.
Local Open Scope zia_scope.

(** ** Specification *)
(** Words and pairs of what is said. *)
Inductive phrase := Word (w : text) | Both (a b : phrase).
(** A pair within another is written in brackets, with one space between its parts. *)
Fixpoint bracketed (p : phrase) : text :=
  match p with
  | Word w => w
  | Both a b => [c_open] ++ bracketed a ++ [c_space] ++ bracketed b ++ [c_close]
  end.
(** The command: no brackets around the whole. *)
Definition spelled (p : phrase) : text :=
  match p with Word w => w | Both a b => bracketed a ++ [c_space] ++ bracketed b end.
Fixpoint words_of (p : phrase) : list text :=
  match p with Word w => [w] | Both a b => words_of a ++ words_of b end.
Definition proper (p : phrase) : Prop := forall w, In w (words_of p) -> word w.
(** The tree has the words of the phrase for leaves and its pairs for branches. *)
Fixpoint says (p : phrase) (t : tree) : Prop :=
  match p with
  | Word w => exists o k, t = TLeaf w o k
  | Both a b => exists l r, t_exp t = Some (l, r) /\ says a l /\ says b r
  end.

(** ** Tokens *)
Fixpoint tokens_of (p : phrase) : list (char_class * text) :=
  match p with
  | Word w => [(ClSymbol, w)]
  | Both a b => (ClOpen, [c_open]) :: tokens_of a ++ (ClSpace, [c_space]) :: tokens_of b ++ [(ClClose, [c_close])]
  end.
Lemma tokens_text p : concat (map snd (tokens_of p)) = bracketed p.
Proof.
  induction p as [w|a IHa b IHb]; [apply app_nil_r|]. cbn [tokens_of map concat snd bracketed].
  rewrite map_app, concat_app, IHa. cbn [map concat snd]. rewrite map_app, concat_app, IHb. reflexivity.
Qed.
Lemma tokens_are p : proper p -> forall k t, In (k, t) (tokens_of p) -> is_token k t.
Proof.
  assert (B : forall k c, class_of c = k -> is_token k [c]).
  { intros k c E. split; [discriminate|]. split; [intros x [<-|[]]; exact E|reflexivity]. }
  induction p as [w|a IHa b IHb]; intros H k t; cbn [tokens_of].
  - intros [[= <- <-]|[]]. destruct (H w (or_introl eq_refl)) as [N C]. split; [exact N|]. split; [exact C|]. intros [|]; discriminate.
  - assert (Ha : proper a) by (intros w J; apply H; cbn; apply in_or_app; auto).
    assert (Hb : proper b) by (intros w J; apply H; cbn; apply in_or_app; auto).
    intros [[= <- <-]|J]; [apply B; reflexivity|]. apply in_app_or in J. destruct J as [J|[[= <- <-]|J]]; [exact (IHa Ha _ _ J)|apply B; reflexivity|].
    apply in_app_or in J. destruct J as [J|[[= <- <-]|[]]]; [exact (IHb Hb _ _ J)|apply B; reflexivity].
Qed.
(** No two neighbours merge. *)
Fixpoint distinct (prev : option char_class) (ks : list char_class) : Prop :=
  match ks with
  | [] => True
  | k :: ks => (prev = Some k -> k = ClOpen \/ k = ClClose) /\ distinct (Some k) ks
  end.
Lemma distinct_no_merge ks : forall p, distinct p ks -> no_merge ks.
Proof.
  induction ks as [|k ks IH]; intros p H i x A B; [destruct i; discriminate|]. destruct H as [_ H]. destruct i as [|i].
  - injection A as <-. destruct ks as [|k' ks]; [discriminate|]. injection B as ->. apply (proj1 H). reflexivity.
  - exact (IH _ H i x A B).
Qed.
(** What follows a phrase, and what stands before it. *)
Lemma distinct_tokens p : forall q rest,
  (q = None \/ q = Some ClOpen \/ q = Some ClSpace) -> (forall e, e = ClSymbol \/ e = ClClose -> distinct (Some e) rest) ->
  distinct q (map fst (tokens_of p) ++ rest).
Proof.
  induction p as [w|a IHa b IHb]; intros q rest Q H; cbn [tokens_of map fst app].
  - split; [destruct Q as [->|[->| ->]]; discriminate|apply H; auto].
  - split; [auto|]. rewrite map_app, <- app_assoc. apply IHa; [auto|]. intros e Ee. cbn [map fst app]. split; [destruct Ee as [->| ->]; discriminate|].
    rewrite map_app, <- app_assoc. apply IHb; [auto|]. intros e' _. cbn [map fst app]. split; [auto|]. apply H. auto.
Qed.
Definition spelled_tokens (p : phrase) : list (char_class * text) :=
  match p with Word w => [(ClSymbol, w)] | Both a b => tokens_of a ++ (ClSpace, [c_space]) :: tokens_of b end.
Lemma spelled_tokenisation p : proper p -> tokenisation (spelled p) (spelled_tokens p).
Proof.
  destruct p as [w|a b]; intros H.
  - split; [exact (tokens_text (Word w))|]. split; [exact (tokens_are (Word w) H)|].
    apply (distinct_no_merge _ None). cbn. split; [discriminate|exact I].
  - assert (Ha : proper a) by (intros w J; apply H; cbn; apply in_or_app; auto).
    assert (Hb : proper b) by (intros w J; apply H; cbn; apply in_or_app; auto).
    split; [|split].
    + cbn [spelled_tokens spelled]. rewrite map_app, concat_app, tokens_text. cbn [map concat snd]. rewrite tokens_text. reflexivity.
    + intros k t J. apply in_app_or in J. destruct J as [J|[[= <- <-]|J]]; [exact (tokens_are a Ha _ _ J)| |exact (tokens_are b Hb _ _ J)].
      split; [discriminate|]. split; [intros c [<-|[]]; reflexivity|intros [|]; discriminate].
    + apply (distinct_no_merge _ None). cbn [spelled_tokens]. rewrite map_app. apply distinct_tokens; [auto|]. intros e Ee. cbn [map fst].
      split; [destruct Ee as [->| ->]; discriminate|]. rewrite <- (app_nil_r (map fst (tokens_of b))). apply distinct_tokens; [auto|]. intros; exact I.
Qed.

(** ** Brackets *)
Section Kinds.
  Variable kf : text -> outcome concept_kind.
  Fixpoint item_of (p : phrase) (i : item) : Prop :=
    match p with
    | Word w => exists k, i = Atom k w /\ kf w = Ok k
    | Both a b => exists ia ib, i = Group [ia; ib] /\ item_of a ia /\ item_of b ib
    end.
  Lemma items_read p : forall ls, cats_ok kf ls -> view ls = tokens_of p -> exists i, item_of p i /\ toks ls = render1 i.
  Proof.
    induction p as [w|a IHa b IHb]; intros ls C V; unfold view in V.
    - destruct ls as [|x [|y ls]]; try discriminate V. injection V as V1 V2.
      pose proof (C x) as K. destruct x as [tx cx]. cbn in *. subst tx. destruct cx as [k| | |]; try discriminate V1.
      exists (Atom k w). split; [|reflexivity]. exists k. split; [reflexivity|]. apply K; auto.
    - cbn [tokens_of] in V. apply map_eq_cons in V. destruct V as (x & l1 & -> & Vx & V).
      apply map_eq_app in V. destruct V as (la & l2 & -> & Va & V). apply map_eq_cons in V. destruct V as (y & l3 & -> & Vy & V).
      apply map_eq_app in V. destruct V as (lb & l4 & -> & Vb & V). apply map_eq_cons in V. destruct V as (z & l5 & -> & Vz & V).
      apply map_eq_nil in V. subst l5.
      destruct (IHa la) as (ia & Ia & Ta); [|exact Va|].
      { intros l k J. apply C. right. apply in_or_app. auto. }
      destruct (IHb lb) as (ib & Ib & Tb); [|exact Vb|].
      { intros l k J. apply C. right. apply in_or_app. right. right. apply in_or_app. auto. }
      exists (Group [ia; ib]). split; [exists ia, ib; auto|].
      assert (Ox : tok_of x = [TOpen]) by (unfold view1, tok_of in *; destruct (lx_cat x); try discriminate Vx; reflexivity).
      assert (Oy : tok_of y = []) by (unfold view1, tok_of in *; destruct (lx_cat y); try discriminate Vy; reflexivity).
      assert (Oz : tok_of z = [TClose]) by (unfold view1, tok_of in *; destruct (lx_cat z); try discriminate Vz; reflexivity).
      rewrite toks_cons, toks_app, toks_cons, toks_app, toks_cons, Ox, Oy, Oz, Ta, Tb. cbn [render1 flat_map app toks].
      rewrite app_nil_r, <- app_assoc. reflexivity.
  Qed.
  Lemma item_nonempty p : forall i, item_of p i -> nonempty_groups [i].
  Proof.
    induction p as [w|a IHa b IHb]; intros i.
    - intros (k & -> & _). constructor. constructor.
    - intros (ia & ib & -> & Ha & Hb). constructor; [discriminate| |constructor].
      exact (nonempty_groups_app [ia] [ib] (IHa _ Ha) (IHb _ Hb)).
  Qed.
  Inductive spells : phrase -> nested -> Prop :=
  | SpWord w k : kf w = Ok k -> spells (Word w) (from_concept_kind k w)
  | SpBoth a b na nb s : spells a na -> spells b nb -> spells (Both a b) (NParent [na; nb] s)
  | SpIn p n s : spells p n -> spells p (NParent [n] s).
  Lemma spelled_node p : forall i, item_of p i -> spells p (item_node i) /\ exists n, heads (item_node i) = [n] /\ spells p n.
  Proof.
    induction p as [w|a IHa b IHb]; intros i.
    - intros (k & -> & K). pose proof (SpWord w k K) as X. split; [exact X|]. exists (from_concept_kind k w). auto.
    - intros (ia & ib & -> & Ha & Hb). destruct (IHa _ Ha) as (_ & na & Hn & Sa). destruct (IHb _ Hb) as [Sb _].
      rewrite item_node_group. cbn [build map]. destruct (fold_heads [item_node ib] (item_node ia)) as (s & E); [discriminate|].
      rewrite E, Hn. cbn [app]. pose proof (SpBoth a b na _ s Sa Sb) as X. split; [apply SpIn, X|]. eexists. split; [reflexivity|exact X].
  Qed.
End Kinds.

(** ** Reading *)
Section Reading.
  Variables (cfg : config) (fuel : nat).
  (** One leaf after the other, and the pairs between them. *)
  Fixpoint reads (kf : text -> outcome concept_kind) (p : phrase) (c : ctx) (t : tree) (c' : ctx) : Prop :=
    match p with
    | Word w => exists k n, kf w = Ok k /\ from_concept_kind k w = n /\ ast_from_nested_syntax cfg fuel n c = Ok (Val t, c')
    | Both a b => exists ta c1 tb c2, reads kf a c ta c1 /\ reads kf b c1 tb c2 /\ ast_from_pair cfg fuel ta tb c2 = Ok (Val t, c')
    end.
  Lemma node_reads kf p n : spells kf p n -> forall c t c', ast_from_nested_syntax cfg fuel n c = Ok (Val t, c') -> reads kf p c t c'.
  Proof.
    intros X. induction X as [w k K|a b na nb s _ IHa _ IHb|p n s _ IH]; intros c t c' E.
    - exists k, (from_concept_kind k w). auto.
    - cbn [ast_from_nested_syntax] in E. apply bind_back in E. destruct E as ([ts|e] & c1 & E1 & E); [|destruct E; discriminate].
      apply bind_back in E1. destruct E1 as ([ta|e] & c2 & Ea & E1); [|destruct E1; discriminate].
      apply bind_back in E1. destruct E1 as ([tb|e] & c3 & Eb & E1); [|destruct E1; discriminate].
      apply bind_back in Eb. destruct Eb as ([tb'|e] & c4 & Eb & E2); [|destruct E2; discriminate].
      injection E2 as <- <-. injection E1 as <- <-. exists ta, c2, tb', c4. auto.
    - cbn [ast_from_nested_syntax] in E. apply bind_back in E. destruct E as ([ts|e] & c1 & E1 & E); [|destruct E; discriminate].
      apply bind_back in E1. destruct E1 as ([ta|e] & c2 & Ea & E1); [|destruct E1; discriminate].
      injection E1 as <- <-. unfold parse_list in E. cbn in E. injection E as <- <-. apply IH, Ea.
  Qed.
  (** The command. *)
  Definition reads_top (kf : text -> outcome concept_kind) (p : phrase) (c : ctx) (u : tree) (c' : ctx) : Prop :=
    match p with
    | Word _ => reads kf p c u c'
    | Both a b => exists ta c1 tb, reads kf a c ta c1 /\ reads kf b c1 tb c' /\ u = new_pair ta tb
    end.
  Lemma spelled_reads p c u c' : proper p -> ast_from_expression cfg fuel (spelled p) c = Ok (Val u, c') ->
    reads_top (kind_of_symbol cfg fuel c) p c u c'.
  Proof.
    intros H E. unfold ast_from_expression, c_lex, c_nest in E.
    apply bind_back in E. destruct E as ([ls|e] & c1 & E1 & E); [|destruct E; discriminate].
    apply lift_back in E1. destruct E1 as [-> E1].
    apply bind_back in E. destruct E as ([n|e] & c1 & E2 & E); [|destruct E; discriminate].
    apply lift_back in E2. destruct E2 as [-> E2].
    pose proof (tokenisation_unique_lemma _ _ _ (lex_tokenisation_lemma _ _ _ E1) (spelled_tokenisation p H)) as V.
    assert (C : cats_ok (kind_of_symbol cfg fuel c) ls) by (intros l k; apply (lex_categories_lemma _ _ _ l k E1)).
    destruct p as [w|a b].
    - destruct (items_read _ (Word w) ls C V) as (i & Hi & Ti).
      assert (WB : well_bracketed (toks ls) [i]).
      { split; [discriminate|]. split; [exact (item_nonempty _ _ _ Hi)|]. rewrite Ti. cbn. symmetry. apply app_nil_r. }
      rewrite (nest_complete _ _ WB) in E2. injection E2 as <-. destruct Hi as (k & -> & K).
      cbn [build map fold_left item_node] in E. unfold from_concept_kind in E. cbn [syntax_list_for_nested_syntax] in E.
      apply bind_back in E. destruct E as ([ts|e] & c1 & E2 & E); [|destruct E; discriminate].
      apply bind_back in E2. destruct E2 as ([t|e] & c2 & E2 & E3); [|destruct E3; discriminate]. injection E3 as <- <-.
      unfold parse_list in E. cbn in E. injection E as <- <-. exists k, (from_concept_kind k w). auto.
    - apply map_eq_app in V. destruct V as (la & l2 & -> & Va & V). apply map_eq_cons in V. destruct V as (y & lb & -> & Vy & Vb).
      destruct (items_read (kind_of_symbol cfg fuel c) a la) with (2 := Va) as (ia & Ia & Ta); [intros l k J; apply C, in_or_app; auto|].
      destruct (items_read (kind_of_symbol cfg fuel c) b lb) with (2 := Vb) as (ib & Ib & Tb); [intros l k J; apply C, in_or_app; right; right; exact J|].
      assert (Oy : tok_of y = []) by (unfold tok_of in *; destruct (lx_cat y); try discriminate Vy; reflexivity).
      assert (WB : well_bracketed (toks (la ++ y :: lb)) [ia; ib]).
      { split; [discriminate|]. split; [exact (nonempty_groups_app [ia] [ib] (item_nonempty _ _ _ Ia) (item_nonempty _ _ _ Ib))|].
        rewrite toks_app, toks_cons, Oy, Ta, Tb. cbn. rewrite app_nil_r. reflexivity. }
      destruct (spelled_node _ a ia Ia) as (_ & na & Hn & Sa). destruct (spelled_node _ b ib Ib) as [Sb _].
      destruct (fold_heads [item_node ib] (item_node ia)) as (s & Eh); [discriminate|].
      assert (Eb : build [ia; ib] = NParent [na; item_node ib] s) by (rewrite Hn in Eh; exact Eh).
      rewrite (nest_complete _ _ WB), Eb in E2. injection E2 as <-. clear Eb.
      cbn [app syntax_list_for_nested_syntax] in E.
      apply bind_back in E. destruct E as ([ts|e] & c1 & E2 & E); [|destruct E; discriminate].
      apply bind_back in E2. destruct E2 as ([ta|e] & c2 & Ea & E2); [|destruct E2; discriminate].
      apply bind_back in E2. destruct E2 as ([tb|e] & c3 & Eb & E2); [|destruct E2; discriminate].
      apply bind_back in Eb. destruct Eb as ([tb'|e] & c4 & Eb & E3); [|destruct E3; discriminate].
      injection E3 as <- <-. injection E2 as <- <-. unfold parse_list in E. cbn in E. injection E as <- <-.
      exists ta, c2, tb'. split; [exact (node_reads _ _ _ Sa _ _ _ Ea)|]. split; [exact (node_reads _ _ _ Sb _ _ _ Eb)|reflexivity].
  Qed.

  Hypothesis D : dbg cfg = true.
  Lemma pair_parts l r c t c' : ast_from_pair cfg fuel l r c = Ok (Val t, c') -> t_exp t = Some (l, r).
  Proof.
    unfold ast_from_pair. intros E. apply bind_back in E. destruct E as ([ty|e] & c1 & _ & E); [|destruct E; discriminate].
    apply bind_back in E. destruct E as ([[]|e] & c2 & _ & E); [|destruct E; discriminate].
    exact (combine_exp cfg fuel D l r c2 t c' E).
  Qed.
  Lemma leaf_read kd w o c t c' : ast_from_syntax_leaf cfg fuel kd w o c = Ok (Val t, c') -> exists x, t = TLeaf w (Some x) kd /\ forall y, o = Some y -> x = y.
  Proof.
    unfold ast_from_syntax_leaf. intros E. apply bind_back in E. destruct E as ([x|e] & c1 & E1 & E); [|destruct E; discriminate].
    injection E as <- <-. exists x. split; [reflexivity|]. intros y ->. injection E1 as <- _. reflexivity.
  Qed.
  Lemma reads_says kf p : forall c t c', reads kf p c t c' -> says p t.
  Proof.
    induction p as [w|a IHa b IHb]; intros c t c'.
    - intros (k & n & _ & <- & E). unfold from_concept_kind in E. cbn [ast_from_nested_syntax] in E.
      destruct (leaf_read _ _ _ _ _ _ E) as (x & -> & _). cbn. eauto.
    - intros (ta & c1 & tb & c2 & Ha & Hb & E). exists ta, tb. split; [exact (pair_parts _ _ _ _ _ E)|]. eauto.
  Qed.
  Theorem spelled_says p c u c' : proper p -> ast_from_expression cfg fuel (spelled p) c = Ok (Val u, c') -> says p u.
  Proof.
    intros H E. apply (spelled_reads p c u c' H) in E. destruct p as [w|a b]; [exact (reads_says _ _ _ _ _ E)|].
    destruct E as (ta & c1 & tb & Ha & Hb & ->). exists ta, tb. split; [|split; eapply reads_says; eassumption].
    unfold new_pair, branch. destruct (pair_vars ta tb). reflexivity.
  Qed.
End Reading.
