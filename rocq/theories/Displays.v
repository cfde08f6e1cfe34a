(** What is displayed for a tree read from words that no precedence mentions, and what typing the
    display in again is read as. *)
From Verif Require Import Start Snapshot Search Context LexerSpec LexerFacts NesterSpec NesterFacts CommandFacts CommandRun
  StoreFacts MapFacts AstFacts RangeFacts Grouping.
From Coq Require Import String List Bool NArith PeanoNat Lia.
Import ListNotations.

(** ** Specification *)
(** A word: what can be typed as one symbol. *)
Definition word (w : text) : Prop := w <> [] /\ forall c, In c w -> class_of c = ClSymbol.
(** Words with one space between each two. *)
Fixpoint spaced (ws : list text) : text :=
  match ws with
  | [] => []
  | [w] => w
  | w :: ws => w ++ c_space :: spaced ws
  end.
(** [u] is the word, or the tree [w1 (w2 (... wn))] of words. *)
Inductive words_right : list text -> tree -> Prop :=
| WordOne u : words_right [display u] u
| WordMore t ws u v : words_right ws v -> t_exp u = Some (t, v) -> words_right (display t :: ws) u.
Definition bracketless (s : text) : Prop := forall c, In c s -> c <> c_open /\ c <> c_close.
(** How the text is cut into tokens. *)
Definition reads_tokens (cfg : config) (fuel : nat) (s : text) (c : ctx) (ts : list tree) (c1 : ctx) : Prop :=
  exists ls n, lex (kind_of_symbol cfg fuel c) s = Ok ls /\ nest ls = Ok n /\
    syntax_list_for_nested_syntax cfg fuel n c = Ok (Val ts, c1).
(** Nothing in the context makes it group the tokens of the text in any particular way. *)
Definition indifferent (cfg : config) (fuel : nat) (s : text) (c : ctx) : Prop :=
  forall ts c1, reads_tokens cfg fuel s c ts c1 -> unrelated cfg c1 ts /\ ~ left_associative cfg fuel c1 ts.

(** ** Lexing and nesting words *)
Fixpoint cut (ws : list text) : list (char_class * text) :=
  match ws with
  | [] => []
  | [w] => [(ClSymbol, w)]
  | w :: ws => (ClSymbol, w) :: (ClSpace, [c_space]) :: cut ws
  end.
Lemma cut_more w v ws : cut (w :: v :: ws) = (ClSymbol, w) :: (ClSpace, [c_space]) :: cut (v :: ws).
Proof. reflexivity. Qed.
Lemma spaced_more w v ws : spaced (w :: v :: ws) = w ++ c_space :: spaced (v :: ws).
Proof. reflexivity. Qed.
Lemma cut_tokenisation ws : (forall w, In w ws -> word w) -> tokenisation (spaced ws) (cut ws).
Proof.
  intros W. split; [|split].
  - induction ws as [|w [|v ws] IH]; [reflexivity|cbn; apply app_nil_r|].
    rewrite cut_more, spaced_more. cbn [map snd concat]. rewrite IH; [reflexivity|]. intros x X. apply W. now right.
  - intros k t. induction ws as [|w [|v ws] IH]; [intros []| |].
    + intros [[= <- <-]|[]]. destruct (W w); [now left|]. split; [assumption|]. split; [assumption|]. intros [|]; discriminate.
    + rewrite cut_more. intros [[= <- <-]|[[= <- <-]|H]].
      * destruct (W w); [now left|]. split; [assumption|]. split; [assumption|]. intros [|]; discriminate.
      * split; [discriminate|]. split; [|auto]. intros c [<-|[]]. reflexivity.
      * apply IH; [|exact H]. intros x X. apply W. now right.
  - clear W. intros i. revert ws. induction i as [i IH] using (well_founded_induction Wf_nat.lt_wf). intros ws k.
    destruct ws as [|w [|v ws]]; [now destruct i|destruct i as [|[|i]]; discriminate|].
    rewrite cut_more. destruct i as [|[|i]]; cbn [map fst nth_error].
    + congruence.
    + destruct ws; cbn [cut map fst nth_error]; congruence.
    + intros A B. apply (IH i ltac:(lia) (v :: ws) k A B).
Qed.

Definition leaf_of (n : nested) (w : text) : Prop := exists k c, n = NLeaf k w c.
Definition flat (ws : list text) (n : nested) : Prop :=
  match ws with
  | [] => False
  | [w] => leaf_of n w
  | _ => exists cs s, n = NParent cs s /\ Forall2 leaf_of cs ws
  end.
Lemma flat_append ws n k w c : flat ws n -> flat (ws ++ [w]) (append_node n (NLeaf k w c)).
Proof.
  destruct ws as [|a [|b ws]]; cbn; [contradiction| |].
  - intros (k' & c' & ->). unfold append_node. do 2 eexists. split; [reflexivity|].
    repeat constructor; unfold leaf_of; eauto.
  - intros (cs & s & -> & H). unfold append_node. do 2 eexists. split; [reflexivity|].
    change (a :: b :: ws ++ [w]) with ((a :: b :: ws) ++ [w]). apply Forall2_app; [exact H|].
    repeat constructor; unfold leaf_of; eauto.
Qed.
Lemma nest_words_loop ws : forall ls n vs, view ls = flat_map (fun w => [(ClSpace, [c_space]); (ClSymbol, w)]) ws ->
  flat vs n -> exists n', nest_loop ([(0, n)], 0) ls = Ok ([(0, n')], 0) /\ flat (vs ++ ws) n'.
Proof.
  induction ws as [|w ws IH]; intros ls n vs V F.
  - destruct ls; [|discriminate V]. exists n. rewrite app_nil_r. auto.
  - destruct ls as [|a [|b ls]]; try discriminate V. cbn [view map flat_map app] in V.
    injection V as V1 _ V2 V3 V. cbn [nest_loop]. unfold nest_step at 1. destruct (lx_cat a); try discriminate V1.
    cbn [obind]. unfold nest_step at 1. destruct (lx_cat b) as [k| | |]; try discriminate V2.
    cbn. destruct (IH ls (append_node n (from_concept_kind k (lx_text b))) (vs ++ [w])%list) as (n' & L & F').
    { exact V. }
    { rewrite V3. apply flat_append, F. }
    exists n'. split; [exact L|]. rewrite <- app_assoc in F'. exact F'.
Qed.
Lemma cut_cons w ws : cut (w :: ws) = (ClSymbol, w) :: flat_map (fun w => [(ClSpace, [c_space]); (ClSymbol, w)]) ws.
Proof. revert w. induction ws as [|v ws IH]; intros w; [reflexivity|]. rewrite cut_more, IH. reflexivity. Qed.
Lemma nest_words kf ws ls n : (forall w, In w ws -> word w) -> lex kf (spaced ws) = Ok ls -> nest ls = Ok n -> flat ws n.
Proof.
  intros W L N. pose proof (tokenisation_unique_lemma _ _ _ (lex_tokenisation_lemma _ _ _ L) (cut_tokenisation ws W)) as V.
  destruct ws as [|w ws].
  { destruct ls; [discriminate N|discriminate V]. }
  rewrite cut_cons in V. destruct ls as [|a ls]; [discriminate V|]. cbn [map] in V. injection V as V1 V2 V.
  unfold nest in N. cbn [nest_loop] in N. unfold nest_step at 1 in N.
  destruct (lx_cat a) as [k| | |] eqn:A; try discriminate V1. cbn [obind aget adel filter aset] in N.
  destruct (nest_words_loop ws ls (from_concept_kind k (lx_text a)) [w] V) as (n' & E & F).
  { rewrite V2. do 2 eexists. reflexivity. }
  change (obind (nest_loop ([(0, from_concept_kind k (lx_text a))], 0) ls)
    (fun '(m, d) => if negb (Nat.eqb d 0) then Err UnmatchedParentheses
      else match aget Nat.eqb 0 m with None => Err EmptyExpression | Some ns => Ok ns end) = Ok n) in N.
  rewrite E in N. cbn in N. injection N as <-. exact F.
Qed.

(** ** Reading words *)
Lemma leaf_displays cfg fuel k s id c t c' :
  ast_from_syntax_leaf cfg fuel k s id c = Ok (Val t, c') -> display t = s /\ t_concept t <> None.
Proof.
  unfold ast_from_syntax_leaf. intros E. apply bind_back in E. destruct E as ([x|x] & c1 & _ & E).
  - injection E as <- _. split; [reflexivity|discriminate].
  - destruct E as [E _]. discriminate E.
Qed.
Lemma children_display cfg fuel cs ws : Forall2 leaf_of cs ws -> forall c ts c',
  (fix all (ns : list nested) : CM (list tree) :=
     match ns with
     | [] => cret []
     | n :: ns => cbind (ast_from_nested_syntax cfg fuel n) (fun t => cbind (all ns) (fun ts => cret (t :: ts)))
     end) cs c = Ok (Val ts, c') ->
  map display ts = ws /\ forall t, In t ts -> t_concept t <> None.
Proof.
  induction 1 as [|n w cs ws (k & id & ->) _ IH]; intros c ts c' E.
  - injection E as <- _. split; [reflexivity|intros t []].
  - apply bind_back in E. destruct E as ([t|x] & c1 & E1 & E); [|destruct E as [E _]; discriminate E].
    apply bind_back in E. destruct E as ([ts'|x] & c2 & E2 & E); [|destruct E as [E _]; discriminate E].
    injection E as <- _. destruct (leaf_displays _ _ _ _ _ _ _ _ E1) as [D C]. destruct (IH _ _ _ E2) as [D' C'].
    split; [cbn; congruence|]. intros x [<-|X]; auto.
Qed.
Lemma tokens_display cfg fuel ws n c ts c' : flat ws n ->
  syntax_list_for_nested_syntax cfg fuel n c = Ok (Val ts, c') ->
  map display ts = ws /\ forall t, In t ts -> t_concept t <> None.
Proof.
  destruct ws as [|w [|v ws]]; cbn [flat].
  - contradiction.
  - intros (k & id & ->) E. cbn [syntax_list_for_nested_syntax] in E.
    apply bind_back in E. destruct E as ([t|x] & c1 & E1 & E); [|destruct E as [E _]; discriminate E].
    injection E as <- _. destruct (leaf_displays _ _ _ _ _ _ _ _ E1) as [D C].
    split; [cbn; congruence|]. intros x [<-|[]]. exact C.
  - intros (cs & s & -> & F) E. cbn [syntax_list_for_nested_syntax] in E. eapply children_display; eassumption.
Qed.

(** ** What a combination displays *)
Definition shows_as (x : tree) (s : text) : Prop :=
  s = display x \/
  existsb is_whitespace (display x) = true /\ exists a b, t_exp x = Some (a, b) /\
    (s = display a ++ c_space :: display b \/ s = parenthesise (display a ++ c_space :: display b)).
Definition joined (u l r : tree) : Prop :=
  t_exp u = Some (l, r) /\ exists s1 s2, display u = s1 ++ c_space :: s2 /\ shows_as l s1 /\ shows_as r s2.
Lemma joined_pair l r : joined (new_pair l r) l r.
Proof.
  unfold joined, new_pair, branch. destruct (pair_vars l r). split; [reflexivity|].
  exists (display l), (display r). unfold shows_as. auto.
Qed.
Lemma joint_left_shows x a ll lr : existsb is_whitespace (display x) = true -> t_exp x = Some (ll, lr) ->
  shows_as x (display_joint_left a ll lr).
Proof. intros W E. right. split; [exact W|]. exists ll, lr. split; [exact E|]. destruct a; cbn; auto. Qed.
Lemma joint_right_shows x a ll lr : existsb is_whitespace (display x) = true -> t_exp x = Some (ll, lr) ->
  shows_as x (display_joint_right a ll lr).
Proof. intros W E. right. split; [exact W|]. exists ll, lr. split; [exact E|]. destruct a; cbn; auto. Qed.
Lemma display_joint_shows o e l r s x s' : display_joint o e l r s = Ok (x, s') ->
  exists s1 s2, x = s1 ++ c_space :: s2 /\ shows_as l s1 /\ shows_as r s2.
Proof.
  unfold display_joint, sbind. intros E. apply obind_ok in E. destruct E as ([s1 st1] & E1 & E).
  apply obind_ok in E. destruct E as ([s2 st2] & E2 & [= <- _]). exists s1, s2. split; [reflexivity|]. split.
  - destruct (existsb is_whitespace (display l)) eqn:W; [|injection E1 as <- _; now left].
    destruct (t_exp l) as [[ll lr]|] eqn:X; [|injection E1 as <- _; now left].
    apply obind_ok in E1. destruct E1 as ([a st] & _ & [= <- _]). now apply joint_left_shows.
  - destruct (existsb is_whitespace (display r)) eqn:W; [|injection E2 as <- _; now left].
    destruct (t_exp r) as [[rl rr]|] eqn:X; [|injection E2 as <- _; now left].
    apply obind_ok in E2. destruct E2 as ([a st] & _ & [= <- _]). now apply joint_right_shows.
Qed.
Lemma combine_joined cfg fuel l r c u c' : dbg cfg = true -> c_combine cfg fuel l r c = Ok (Val u, c') -> joined u l r.
Proof.
  intros D E. split; [eapply combine_exp; eassumption|].
  unfold c_combine, with_search in E. destruct (combine_ast _ _ _ _ _ _ _) as [[a s]| | |] eqn:E0; try discriminate E.
  injection E as <- _. unfold combine_ast, sbind in E0. apply obind_ok in E0. destruct E0 as ([o s1] & _ & E).
  apply obind_ok in E. destruct E as ([t s2] & E1 & E).
  unfold join, sbind in E1. apply obind_ok in E1. destruct E1 as ([x s3] & E1 & [= <- <-]).
  apply display_joint_shows in E1. assert (B : display (bind_pair (from_text x) l r) = x).
  { unfold bind_pair, branch. destruct (pair_vars l r). reflexivity. }
  destruct o as [id|]; [|injection E as <- _; rewrite B; exact E1].
  unfold slift in E. apply obind_ok in E. destruct E as (y & E & [= <- _]).
  unfold bind_concept_to_syntax in E. apply obind_ok in E. destruct E as (ty & _ & E). destruct (opt_cct_eqb _ _).
  - unfold bind_quantifier in E. rewrite D in E. unfold bind_pair, branch in E. destruct (pair_vars l r). discriminate E.
  - injection E as <-. replace (display (bind_nonquantifier (bind_pair (from_text x) l r) id)) with x; [exact E1|].
    unfold bind_pair, branch. destruct (pair_vars l r). reflexivity.
Qed.

(** ** The display of right-grouped words *)
Lemma word_blank w : word w -> existsb is_whitespace w = false.
Proof.
  intros [_ H]. apply not_true_iff_false. intros E. apply existsb_exists in E. destruct E as (c & I & W).
  specialize (H c I). unfold class_of in H. destruct (N.eqb c 40); [discriminate H|].
  destruct (N.eqb c 41); [discriminate H|]. rewrite W in H. discriminate H.
Qed.
Lemma shows_word t s : word (display t) -> shows_as t s -> s = display t.
Proof. intros W [H|[H _]]; [exact H|]. rewrite (word_blank _ W) in H. discriminate H. Qed.
Lemma bracketless_parenthesise s a b : ~ bracketless (a ++ parenthesise s ++ b).
Proof.
  intros H. destruct (H c_open) as [K _]; [|contradiction]. apply in_or_app. right. now left.
Qed.
Lemma chained_words n : forall ts u, le (length ts) n -> chained joined ts u -> (forall t, In t ts -> word (display t)) ->
  words_right (map display ts) u /\ (bracketless (display u) -> display u = spaced (map display ts)).
Proof.
  induction n as [|n IH]; intros ts u L C W; inversion C as [t|t ts' u' v C' J]; subst.
  - cbn in L. lia.
  - cbn in L. lia.
  - split; [constructor|reflexivity].
  - cbn in L. assert (W' : forall t, In t ts' -> word (display t)) by (intros; apply W; now right).
    destruct (IH ts' v ltac:(lia) C' W') as [G S]. destruct J as [X (s1 & s2 & D & S1 & S2)].
    split; [exact (WordMore t _ u v G X)|]. intros B. rewrite D in *.
    apply shows_word in S1; [|apply W; now left]. subst s1.
    assert (N : ts' <> []) by (inversion C'; discriminate).
    replace (spaced (map display (t :: ts'))) with (display t ++ c_space :: spaced (map display ts'))
      by (destruct ts'; [congruence|reflexivity]).
    do 2 f_equal. assert (B2 : bracketless s2).
    { intros c I. apply B. apply in_or_app. right. right. exact I. }
    destruct S2 as [->|[K (a & b & X' & S2)]]; [apply S, B2|].
    inversion C' as [t2|t2 ts2 u2 v2 C2 J2]; subst.
    { rewrite (word_blank (display v)) in K; [discriminate K|]. apply W'. now left. }
    destruct J2 as [X2 _]. rewrite X' in X2. injection X2 as -> ->.
    destruct S2 as [->| ->].
    + cbn in L. destruct (IH ts2 v2 ltac:(lia) C2) as [_ S2]; [intros; apply W'; now right|].
      rewrite S2; [|intros c I; apply B2; apply in_or_app; right; now right].
      assert (N2 : ts2 <> []) by (inversion C2; discriminate). destruct ts2; [congruence|reflexivity].
    + exfalso. apply (bracketless_parenthesise (display t2 ++ c_space :: display v2) [] []).
      rewrite app_nil_r. exact B2.
Qed.

(** ** Reading text made of words *)
Lemma read_words cfg fuel ws c u c' : fair cfg -> dbg cfg = true ->
  (forall w, In w ws -> word w) -> indifferent cfg fuel (spaced ws) c ->
  ast_from_expression cfg fuel (spaced ws) c = Ok (Val u, c') ->
  words_right ws u /\ (bracketless (display u) -> display u = spaced ws).
Proof.
  intros F D W I E. unfold ast_from_expression, c_lex, c_nest, clift in E.
  apply bind_back in E. destruct E as ([ls|x] & c1 & E1 & E); [|destruct E as [E _]; discriminate E].
  apply bind_back in E. destruct E as ([n|x] & c2 & E2 & E); [|destruct E as [E _]; discriminate E].
  destruct (lex _ _) as [ls'| | |] eqn:L; try discriminate E1. injection E1 as -> <-.
  destruct (nest ls) as [n'| | |] eqn:N; try discriminate E2. injection E2 as -> <-.
  apply bind_back in E. destruct E as ([ts|x] & c3 & E3 & E); [|destruct E as [E _]; discriminate E].
  destruct (I ts c3) as [U A]; [exists ls, n; auto|].
  pose proof (nest_words _ _ _ _ W L N) as FL. destruct (tokens_display _ _ _ _ _ _ _ FL E3) as [T C].
  assert (NE : ts <> []). { intros ->. subst ws. exact FL. }
  destruct (chained_list cfg fuel F joined (fun l r x y z => combine_joined cfg fuel l r x y z D) joined_pair)
    with (ts := ts) (c := c3) (r := Val u) (c' := c') as [H|H]; auto.
  - intros _. destruct ts as [|t ts]; [congruence|]. exists t. split; [now left|]. apply C. now left.
  - contradiction.
  - rewrite <- T. apply (chained_words (length ts)); auto. intros t J. apply W. rewrite <- T. now apply in_map.
Qed.
