(** Proofs about the lexer. *)
From Verif Require Import Lexer LexerSpec.
From Coq Require Import String List NArith ZArith Lia.
Import ListNotations.
Local Open Scope zia_scope.

(** ** Vec lemmas *)
Lemma unsnoc_app {A} (l : list A) x : unsnoc (l ++ [x]) = Some (l, x).
Proof. unfold unsnoc. rewrite rev_app_distr. cbn. now rewrite rev_involutive. Qed.

Lemma unsnoc_Some {A} (l i : list A) x : unsnoc l = Some (i, x) -> l = i ++ [x].
Proof.
  unfold unsnoc. destruct (rev l) as [|y r] eqn:E; [discriminate|].
  intros H; injection H as <- <-.
  rewrite <- (rev_involutive l), E. reflexivity.
Qed.

Lemma unsnoc_None {A} (l : list A) : unsnoc l = None -> l = [].
Proof.
  unfold unsnoc. destruct (rev l) as [|y r] eqn:E; [|discriminate].
  intros _. rewrite <- (rev_involutive l), E. reflexivity.
Qed.

Lemma length_upd_nth {A} i f (l : list A) : List.length (upd_nth i f l) = List.length l.
Proof. revert i; induction l as [|x l IH]; intros [|i]; cbn; auto. Qed.

Lemma nth_error_upd_nth {A} i f (l : list A) j :
  nth_error (upd_nth i f l) j =
  if Nat.eqb i j then option_map f (nth_error l j) else nth_error l j.
Proof.
  revert i j; induction l as [|x l IH]; intros [|i] [|j]; cbn; auto.
  - now destruct (Nat.eqb i j).
Qed.

Lemma map_upd_nth_same {A B} (g : A -> B) i f l :
  (forall x, g (f x) = g x) -> map g (upd_nth i f l) = map g l.
Proof.
  intros H; revert i; induction l as [|x l IH]; intros [|i]; cbn; auto.
  - now rewrite H.
  - now rewrite IH.
Qed.

(** ** Token view *)
Definition view1 (l : lexeme) : char_class * text := (cat_class (lx_cat l), lx_text l).
Definition view (ls : list lexeme) := map view1 ls.

Lemma view_set_closing cp i ls : view (upd_nth i (set_closing cp) ls) = view ls.
Proof.
  apply map_upd_nth_same. intros [t c]. unfold set_closing, view1. cbn. now destruct c.
Qed.

Lemma no_merge_snoc ks k :
  no_merge ks ->
  (forall i, ks = i ++ [k] -> k = ClOpen \/ k = ClClose) ->
  no_merge (ks ++ [k]).
Proof.
  intros H Hl i k' H1 H2.
  assert (Hi : S i < List.length (ks ++ [k])).
  { apply nth_error_Some. congruence. }
  rewrite app_length in Hi. cbn in Hi.
  destruct (Nat.eq_dec (S i) (List.length ks)) as [E|E].
  - rewrite nth_error_app2 in H2 by lia. rewrite E, Nat.sub_diag in H2. cbn in H2.
    injection H2 as <-. rewrite nth_error_app1 in H1 by lia.
    destruct (unsnoc ks) as [[i0 x]|] eqn:Eu.
    + apply unsnoc_Some in Eu. subst ks.
      rewrite app_length in E. cbn in E.
      rewrite nth_error_app2 in H1 by lia.
      replace (i - List.length i0) with 0 in H1 by lia. cbn in H1. injection H1 as ->.
      eapply Hl; reflexivity.
    + apply unsnoc_None in Eu. subst ks. cbn in E. lia.
  - rewrite nth_error_app1 in H1 by lia. rewrite nth_error_app1 in H2 by lia. exact (H i k' H1 H2).
Qed.

Lemma tokenisation_push s ts c k :
  tokenisation s ts -> class_of c = k ->
  (forall i, map fst ts = i ++ [k] -> k = ClOpen \/ k = ClClose) ->
  tokenisation (s ++ [c]) (ts ++ [(k, [c])]).
Proof.
  intros (H1 & H2 & H3) Hc Hl. split; [|split].
  - rewrite map_app, concat_app, H1. reflexivity.
  - intros k' t [Hin|Hin]%in_app_or.
    + now apply H2.
    + destruct Hin as [Heq|[]]. injection Heq as <- <-. split; [discriminate|]. split; auto.
      intros c' [<-|[]]; exact Hc.
  - rewrite map_app. cbn. apply no_merge_snoc; auto.
Qed.

Lemma tokenisation_extend s i t c k :
  tokenisation s (i ++ [(k, t)]) -> class_of c = k -> k <> ClOpen -> k <> ClClose ->
  tokenisation (s ++ [c]) (i ++ [(k, t ++ [c])]).
Proof.
  intros (H1 & H2 & H3) Hc Hn1 Hn2. split; [|split].
  - rewrite map_app, concat_app in *. cbn in *. rewrite app_nil_r in *.
    rewrite <- H1, app_assoc. reflexivity.
  - intros k' t' [Hin|Hin]%in_app_or.
    + apply H2. apply in_or_app. now left.
    + destruct Hin as [Heq|[]]. injection Heq as <- <-.
      destruct (H2 k t) as (G1 & G2 & G3). { apply in_or_app. right. now left. }
      split; [now destruct t|]. split.
      * intros c' [Hc'|Hc']%in_app_or; [now apply G2|]. destruct Hc' as [<-|[]]; exact Hc.
      * intros [E|E]; contradiction.
  - rewrite map_app in *. exact H3.
Qed.

Lemma class_of_cases c :
  class_of c = (if N.eqb c c_open then ClOpen else if N.eqb c c_close then ClClose
                else if is_whitespace c then ClSpace else ClSymbol).
Proof. reflexivity. Qed.

Lemma snoc_inj {A} (a b : list A) x y : a ++ [x] = b ++ [y] -> a = b /\ x = y.
Proof. apply app_inj_tail. Qed.

Lemma lex_step_tokens kf s ls stk c ls' stk' :
  tokenisation s (view ls) ->
  lex_step kf (ls, stk) c = Ok (ls', stk') ->
  tokenisation (s ++ [c]) (view ls').
Proof.
  intros Ht. unfold lex_step.
  pose proof (class_of_cases c) as Hc.
  destruct (N.eqb c c_open) eqn:E1.
  { intros H; injection H as <- <-. unfold view. rewrite map_app. cbn [map view1].
    apply tokenisation_push; auto. }
  destruct (N.eqb c c_close) eqn:E2.
  { destruct stk as [|op stk0].
    - intros H; injection H as <- <-. unfold view. rewrite map_app. cbn [map view1].
      apply tokenisation_push; auto.
    - destruct (Nat.ltb op (List.length ls)); [|discriminate].
      intros H; injection H as <- <-. unfold view at 1. rewrite map_app. cbn [map view1].
      fold (view (upd_nth op (set_closing (List.length ls)) ls)).
      rewrite view_set_closing. apply tokenisation_push; auto. }
  destruct (is_whitespace c) eqn:E3.
  { destruct (unsnoc ls) as [[i [t cat]]|] eqn:Eu.
    - apply unsnoc_Some in Eu. subst ls.
      assert (Hview : forall ca, view (i ++ [mkLexeme t ca]) = view i ++ [(cat_class ca, t)]).
      { intros ca. unfold view. now rewrite map_app. }
      rewrite Hview in Ht.
      destruct cat; cbn [obind] in *; intros H; injection H as <- <-; unfold view;
        rewrite map_app; cbn [map view1].
      2: { apply tokenisation_extend; auto; discriminate. }
      all: rewrite map_app; cbn [map view1 lx_cat lx_text cat_class] in *;
        apply tokenisation_push; auto; intros j; rewrite map_app; cbn;
        intros [_ G]%snoc_inj; discriminate.
    - apply unsnoc_None in Eu. subst ls.
      intros H; injection H as <- <-. apply (tokenisation_push s (view [])); auto.
      intros [|? ?]; discriminate. }
  destruct (unsnoc ls) as [[i [t cat]]|] eqn:Eu.
  - apply unsnoc_Some in Eu. subst ls.
    assert (Hview : forall ca, view (i ++ [mkLexeme t ca]) = view i ++ [(cat_class ca, t)]).
    { intros ca. unfold view. now rewrite map_app. }
    rewrite Hview in Ht.
    destruct cat.
    + destruct (kf (t ++ [c])); try discriminate. cbn [obind].
      intros H; injection H as <- <-. unfold view.
      rewrite map_app; cbn [map view1]. apply tokenisation_extend; auto; discriminate.
    + destruct (kf [c]); try discriminate. cbn [obind].
      intros H; injection H as <- <-. unfold view.
      rewrite map_app; cbn [map view1].
      fold (view (i ++ [mkLexeme t CatWhitespace])). rewrite Hview.
      apply tokenisation_push; auto; intros j; rewrite map_app; cbn;
        intros [_ G]%snoc_inj; discriminate.
    + destruct (kf [c]); try discriminate. cbn [obind].
      intros H; injection H as <- <-. unfold view.
      rewrite map_app; cbn [map view1].
      fold (view (i ++ [mkLexeme t (CatOpen closing_position)])). rewrite Hview.
      apply tokenisation_push; auto; intros j; rewrite map_app; cbn;
        intros [_ G]%snoc_inj; discriminate.
    + destruct (kf [c]); try discriminate. cbn [obind].
      intros H; injection H as <- <-. unfold view.
      rewrite map_app; cbn [map view1].
      fold (view (i ++ [mkLexeme t (CatClose opening_position)])). rewrite Hview.
      apply tokenisation_push; auto; intros j; rewrite map_app; cbn;
        intros [_ G]%snoc_inj; discriminate.
  - apply unsnoc_None in Eu. subst ls.
    destruct (kf [c]); try discriminate. cbn [obind].
    intros H; injection H as <- <-. apply (tokenisation_push s (view [])); auto.
    intros [|? ?]; discriminate.
Qed.

Lemma lex_loop_tokens kf cs : forall s st ls' stk',
  tokenisation s (view (fst st)) ->
  lex_loop kf st cs = Ok (ls', stk') ->
  tokenisation (s ++ cs) (view ls').
Proof.
  induction cs as [|c cs IH]; intros s [ls stk] ls' stk' Ht H; cbn [lex_loop fst] in *.
  - injection H as <- <-. now rewrite app_nil_r.
  - destruct (lex_step kf (ls, stk) c) as [[ls1 stk1]| | |] eqn:Es; try discriminate.
    cbn [obind] in H.
    replace (s ++ c :: cs) with ((s ++ [c]) ++ cs) by now rewrite <- app_assoc.
    eapply IH; [|exact H]. eapply lex_step_tokens; eassumption.
Qed.

Lemma tokenisation_nil : tokenisation [] [].
Proof.
  split; [reflexivity|]. split; [intros k t []|]. intros [|i] k H; discriminate.
Qed.

Lemma lex_tokenisation_lemma kf s ls :
  lex kf s = Ok ls -> tokenisation s (map (fun l => (cat_class (lx_cat l), lx_text l)) ls).
Proof.
  unfold lex. destruct (lex_loop kf ([], []) s) as [[l' stk']| | |] eqn:E; try discriminate.
  cbn. intros H; injection H as <-.
  change s with ([] ++ s). eapply lex_loop_tokens; [|exact E]. exact tokenisation_nil.
Qed.

Lemma lex_lossless_lemma kf s ls : lex kf s = Ok ls -> concat (map lx_text ls) = s.
Proof.
  intros H%lex_tokenisation_lemma. destruct H as [H _]. rewrite map_map in H. exact H.
Qed.

(** ** Uniqueness of tokenisations *)
Lemma tokenisation_tail s k t ts :
  tokenisation s ((k, t) :: ts) -> tokenisation (concat (map snd ts)) ts.
Proof.
  intros (H1 & H2 & H3). split; [reflexivity|]. split.
  - intros k' t' Hin. apply H2. now right.
  - intros i k' G1 G2. apply (H3 (S i) k'); assumption.
Qed.

(** The first token is determined by the text. *)
Lemma tokenisation_head_le s k1 t1 ts1 k2 t2 ts2 :
  tokenisation s ((k1, t1) :: ts1) -> tokenisation s ((k2, t2) :: ts2) ->
  k1 = k2 /\ List.length t1 <= List.length t2.
Proof.
  intros (A1 & A2 & A3) (B1 & B2 & B3).
  destruct (A2 k1 t1) as (A4 & A5 & A6); [now left|].
  destruct (B2 k2 t2) as (B4 & B5 & B6); [now left|].
  cbn in A1, B1.
  assert (Hk : k1 = k2).
  { destruct t1 as [|c t1]; [contradiction|]. destruct t2 as [|d t2]; [contradiction|].
    rewrite <- B1 in A1. cbn in A1. injection A1 as -> _.
    rewrite <- (A5 d), <- (B5 d); [reflexivity|now left|now left]. }
  split; [exact Hk|]. subst k2.
  destruct (Nat.le_gt_cases (List.length t1) (List.length t2)) as [|Hlt]; [assumption|].
  exfalso.
  (* t1 is longer: then the token after t2 starts with a character of t1 *)
  assert (Hnb : ~ (k1 = ClOpen \/ k1 = ClClose)).
  { intros Hb. specialize (A6 Hb). destruct t2; [contradiction|]. cbn in *. lia. }
  rewrite <- B1 in A1.
  assert (Hsplit : exists u, u <> [] /\ t1 = t2 ++ u /\ u ++ concat (map snd ts1) = concat (map snd ts2)).
  { exists (skipn (List.length t2) t1).
    assert (Hf : firstn (List.length t2) t1 = t2).
    { transitivity (firstn (List.length t2) (t1 ++ concat (map snd ts1))).
      - rewrite firstn_app. replace (List.length t2 - List.length t1) with 0 by lia.
        cbn. now rewrite app_nil_r.
      - rewrite A1, firstn_app, Nat.sub_diag, firstn_all. cbn. now rewrite app_nil_r. }
    repeat split.
    - intros E. apply (f_equal (@List.length _)) in E. rewrite skipn_length in E. cbn in E. lia.
    - now rewrite <- Hf at 1; rewrite firstn_skipn.
    - apply (app_inv_head t2). rewrite <- A1, app_assoc. f_equal.
      rewrite <- Hf at 1. apply firstn_skipn. }
  destruct Hsplit as (u & Hu & Et1 & Eu).
  destruct ts2 as [|[k3 t3] ts2].
  - cbn in Eu. destruct u; [contradiction|discriminate].
  - destruct (B2 k3 t3) as (C4 & C5 & C6); [right; now left|].
    cbn in Eu. destruct u as [|c u]; [contradiction|]. destruct t3 as [|d t3]; [contradiction|].
    cbn in Eu. injection Eu as -> _.
    assert (k1 = k3).
    { rewrite <- (A5 d), <- (C5 d); [reflexivity|now left|].
      rewrite Et1. apply in_or_app. right. now left. }
    subst k3. apply Hnb. apply (B3 0 k1); reflexivity.
Qed.

Lemma tokenisation_unique_lemma s ts1 : forall ts2,
  tokenisation s ts1 -> tokenisation s ts2 -> ts1 = ts2.
Proof.
  revert s; induction ts1 as [|[k1 t1] ts1 IH]; intros s [|[k2 t2] ts2] H1 H2.
  - reflexivity.
  - exfalso. destruct H1 as [E _]. destruct H2 as (E2 & G & _). cbn in *. subst s.
    destruct (G k2 t2) as [Hn _]; [now left|]. destruct t2; [contradiction|discriminate].
  - exfalso. destruct H2 as [E _]. destruct H1 as (E2 & G & _). cbn in *. subst s.
    destruct (G k1 t1) as [Hn _]; [now left|]. destruct t1; [contradiction|discriminate].
  - destruct (tokenisation_head_le _ _ _ _ _ _ _ H1 H2) as [Ek L1].
    destruct (tokenisation_head_le _ _ _ _ _ _ _ H2 H1) as [_ L2].
    subst k2.
    assert (t1 = t2 /\ concat (map snd ts1) = concat (map snd ts2)) as [-> E].
    { destruct H1 as [E1 _]. destruct H2 as [E2 _]. cbn in *. rewrite <- E2 in E1.
      assert (L : List.length t1 = List.length t2) by lia.
      clear - E1 L. revert t2 E1 L; induction t1 as [|a t1 IH]; intros [|b t2] E L; try discriminate.
      - now split.
      - cbn in E, L. injection E as -> E. destruct (IH t2 E) as [-> ->]; [lia|]. now split. }
    f_equal. apply (IH (concat (map snd ts2))).
    + rewrite <- E. eapply tokenisation_tail; eassumption.
    + eapply tokenisation_tail; eassumption.
Qed.

(** ** Categories *)
Definition cats_ok (kf : text -> outcome concept_kind) (ls : list lexeme) : Prop :=
  forall l k, In l ls -> lx_cat l = CatConcept k -> kf (lx_text l) = Ok k.

Lemma cats_ok_snoc kf ls l :
  cats_ok kf ls -> (forall k, lx_cat l = CatConcept k -> kf (lx_text l) = Ok k) ->
  cats_ok kf (ls ++ [l]).
Proof.
  intros H Hl l' k [Hin|[<-|[]]]%in_app_or; [now apply H|apply Hl].
Qed.

Lemma cats_ok_init kf ls l : cats_ok kf (ls ++ [l]) -> cats_ok kf ls.
Proof. intros H l' k Hin. apply H. apply in_or_app. now left. Qed.

Lemma cats_ok_upd kf ls i cp : cats_ok kf ls -> cats_ok kf (upd_nth i (set_closing cp) ls).
Proof.
  intros H l k Hin Hc. apply In_nth_error in Hin. destruct Hin as [j Hj].
  rewrite nth_error_upd_nth in Hj. destruct (Nat.eqb i j).
  - destruct (nth_error ls j) as [l0|] eqn:E; [|discriminate]. cbn in Hj. injection Hj as <-.
    unfold set_closing in *. destruct (lx_cat l0) eqn:El; cbn in Hc; try discriminate.
    + apply H; [eapply nth_error_In; eassumption|]. exact Hc.
    + congruence.
    + congruence.
  - apply H; [eapply nth_error_In; eassumption|exact Hc].
Qed.

Lemma lex_step_cats kf ls stk c ls' stk' :
  cats_ok kf ls -> lex_step kf (ls, stk) c = Ok (ls', stk') -> cats_ok kf ls'.
Proof.
  intros H. unfold lex_step.
  destruct (N.eqb c c_open).
  { intros E; injection E as <- <-. apply cats_ok_snoc; [exact H|discriminate]. }
  destruct (N.eqb c c_close).
  { destruct stk as [|op stk0].
    - intros E; injection E as <- <-. apply cats_ok_snoc; [exact H|discriminate].
    - destruct (Nat.ltb _ _); [|discriminate]. intros E; injection E as <- <-.
      apply cats_ok_snoc; [now apply cats_ok_upd|discriminate]. }
  destruct (is_whitespace c).
  { destruct (unsnoc ls) as [[i [t cat]]|] eqn:Eu.
    - apply unsnoc_Some in Eu. subst ls.
      destruct cat; intros E; injection E as <- <-; apply cats_ok_snoc; try discriminate;
        try exact H; eapply cats_ok_init; exact H.
    - intros E; injection E as <- <-. apply cats_ok_snoc; [exact H|discriminate]. }
  destruct (unsnoc ls) as [[i [t cat]]|] eqn:Eu.
  - apply unsnoc_Some in Eu. subst ls.
    destruct cat.
    + destruct (kf (t ++ [c])) eqn:Ek; try discriminate. cbn [obind].
      intros E; injection E as <- <-. apply cats_ok_snoc.
      * eapply cats_ok_init; exact H.
      * cbn. intros k0 G; injection G as <-. exact Ek.
    + destruct (kf [c]) eqn:Ek; try discriminate. cbn [obind].
      intros E; injection E as <- <-. apply cats_ok_snoc; [exact H|].
      cbn. intros k0 G; injection G as <-. exact Ek.
    + destruct (kf [c]) eqn:Ek; try discriminate. cbn [obind].
      intros E; injection E as <- <-. apply cats_ok_snoc; [exact H|].
      cbn. intros k0 G; injection G as <-. exact Ek.
    + destruct (kf [c]) eqn:Ek; try discriminate. cbn [obind].
      intros E; injection E as <- <-. apply cats_ok_snoc; [exact H|].
      cbn. intros k0 G; injection G as <-. exact Ek.
  - destruct (kf [c]) eqn:Ek; try discriminate. cbn [obind].
    intros E; injection E as <- <-. apply cats_ok_snoc; [exact H|].
    cbn. intros k0 G; injection G as <-. exact Ek.
Qed.

Lemma lex_categories_lemma kf s ls l k :
  lex kf s = Ok ls -> In l ls -> lx_cat l = CatConcept k -> kf (lx_text l) = Ok k.
Proof.
  intros H. revert l k. change (cats_ok kf ls).
  unfold lex in H. destruct (lex_loop kf ([], []) s) as [[l' stk']| | |] eqn:E; try discriminate.
  cbn in H. injection H as <-.
  assert (G : forall cs st ls' stk', cats_ok kf (fst st) -> lex_loop kf st cs = Ok (ls', stk') -> cats_ok kf ls').
  { induction cs as [|c cs IH]; intros [ls stk] ls' stk'' Hc Hl; cbn [lex_loop fst] in *.
    - injection Hl as <- <-. exact Hc.
    - destruct (lex_step kf (ls, stk) c) as [[ls1 stk1]| | |] eqn:Es; try discriminate.
      cbn [obind] in Hl. eapply IH; [|exact Hl]. cbn. eapply lex_step_cats; eassumption. }
  eapply G; [|exact E]. intros l k [].
Qed.

(** ** Brackets *)
Arguments Z.add : simpl never.
Definition dz (k : char_class) : Z :=
  match k with ClOpen => 1 | ClClose => -1 | _ => 0 end%Z.
Fixpoint depth (ks : list char_class) : Z :=
  match ks with [] => 0 | k :: ks' => dz k + depth ks' end%Z.

Lemma depth_app a b : depth (a ++ b) = (depth a + depth b)%Z.
Proof. induction a as [|x a IH]; cbn; [reflexivity|]. rewrite IH. lia. Qed.

Lemma balanced_depth b : balanced b -> depth b = 0%Z.
Proof.
  induction 1 as [|k ks H1 H2 _ IH|inner ks _ IH1 _ IH2]; cbn; auto.
  - destruct k; cbn; try contradiction; lia.
  - rewrite depth_app. cbn. lia.
Qed.

Lemma balanced_prefix b : balanced b -> forall n, (0 <= depth (firstn n b))%Z.
Proof.
  induction 1 as [|k ks H1 H2 _ IH|inner ks Hi IH1 _ IH2]; intros n.
  - rewrite firstn_nil. cbn. lia.
  - destruct n as [|n]; cbn; [lia|]. specialize (IH n).
    destruct k; cbn; try contradiction; lia.
  - destruct n as [|n]; [cbn; lia|]. rewrite firstn_cons. cbn [depth dz].
    rewrite firstn_app, depth_app.
    specialize (IH1 n).
    destruct (n - List.length inner) as [|m] eqn:Em.
    + cbn [firstn depth]. lia.
    + rewrite firstn_cons. cbn [depth dz]. specialize (IH2 m).
      rewrite firstn_all2 by lia. rewrite (balanced_depth _ Hi). lia.
Qed.

Lemma balanced_suffix b : balanced b -> forall n, (depth (skipn n b) <= 0)%Z.
Proof.
  intros H n. pose proof (balanced_prefix _ H n) as G.
  pose proof (balanced_depth _ H) as D.
  rewrite <- (firstn_skipn n b), depth_app in D. lia.
Qed.

Lemma balanced_app a b : balanced a -> balanced b -> balanced (a ++ b).
Proof.
  induction 1 as [|k ks H1 H2 _ IH|inner ks Hi _ _ IH2]; intros Hb; cbn; auto.
  - constructor; auto.
  - rewrite <- app_assoc. cbn. apply bal_pair; auto.
Qed.

Lemma app_len_inj {A} (a b x y : list A) :
  a ++ x = b ++ y -> List.length a = List.length b -> a = b /\ x = y.
Proof.
  revert b; induction a as [|c a IH]; intros [|d b] E L; try discriminate.
  - now split.
  - cbn in E, L. injection E as -> E. destruct (IH b E) as [-> ->]; [lia|]. now split.
Qed.

Lemma balanced_close_cmp x y u v :
  balanced x -> balanced y ->
  x ++ ClClose :: u = y ++ ClClose :: v -> List.length x < List.length y -> False.
Proof.
  intros Bx By E L.
  pose proof (balanced_prefix _ By (S (List.length x))) as P.
  assert (F : firstn (S (List.length x)) y = x ++ [ClClose]).
  { transitivity (firstn (S (List.length x)) (y ++ ClClose :: v)).
    - rewrite firstn_app. replace (S (List.length x) - List.length y) with 0 by lia.
      cbn [firstn]. now rewrite app_nil_r.
    - rewrite <- E. rewrite firstn_app. rewrite firstn_all2 by lia.
      replace (S (List.length x) - List.length x) with 1 by lia. reflexivity. }
  rewrite F, depth_app, (balanced_depth _ Bx) in P. cbn in P. lia.
Qed.

Lemma bracket_match_fun ks i j j' :
  bracket_match ks i j -> bracket_match ks i j' -> j = j'.
Proof.
  intros (b1 & n1 & a1 & E1 & I1 & J1 & B1) (b2 & n2 & a2 & E2 & I2 & J2 & B2).
  rewrite E1 in E2. apply app_len_inj in E2 as [Eb El]; [|lia]. injection El as El.
  destruct (Nat.lt_trichotomy (List.length n1) (List.length n2)) as [L|[L|L]].
  - exfalso. exact (balanced_close_cmp _ _ _ _ B1 B2 El L).
  - lia.
  - exfalso. exact (balanced_close_cmp _ _ _ _ B2 B1 (eq_sym El) L).
Qed.

Lemma firstn_len_app {A} n (a b : list A) : n = List.length a -> firstn n (a ++ b) = a.
Proof. intros ->. rewrite firstn_app, firstn_all, Nat.sub_diag. cbn. apply app_nil_r. Qed.

Lemma bracket_match_inj ks i i' j :
  bracket_match ks i j -> bracket_match ks i' j -> i = i'.
Proof.
  intros (b1 & n1 & a1 & E1 & I1 & J1 & B1) (b2 & n2 & a2 & E2 & I2 & J2 & B2).
  assert (Hpre : forall b n (a : list char_class), ks = b ++ ClOpen :: n ++ ClClose :: a ->
     firstn (S (List.length b + List.length n)) ks = b ++ ClOpen :: n).
  { intros b n a ->. replace (b ++ ClOpen :: n ++ ClClose :: a) with ((b ++ ClOpen :: n) ++ ClClose :: a)
      by now rewrite <- app_assoc.
    apply firstn_len_app. rewrite app_length; cbn; lia. }
  pose proof (Hpre _ _ _ E1) as P1. pose proof (Hpre _ _ _ E2) as P2.
  rewrite <- J1 in P1. rewrite <- J2 in P2. rewrite P1 in P2.
  assert (Hcmp : forall x y u v, balanced x -> balanced y ->
      u ++ ClOpen :: x = v ++ ClOpen :: y -> List.length u < List.length v -> False).
  { intros x y u v Bx By E L.
    apply app_eq_app in E as (l & [[Eb El]|[Eb El]]).
    - apply (f_equal (@List.length _)) in Eb. rewrite app_length in Eb. lia.
    - destruct l as [|c l].
      { rewrite app_nil_r in Eb. subst v. lia. }
      cbn in El. injection El as <- El.
      pose proof (balanced_suffix _ Bx (List.length l)) as P.
      rewrite El in P. rewrite skipn_app, skipn_all, Nat.sub_diag in P. cbn in P.
      rewrite (balanced_depth _ By) in P. lia. }
  destruct (Nat.lt_trichotomy (List.length b1) (List.length b2)) as [L|[L|L]].
  - exfalso. eapply (Hcmp n1 n2); [| |exact P2|exact L]; assumption.
  - lia.
  - exfalso. eapply (Hcmp n2 n1); [| |symmetry; exact P2|exact L]; assumption.
Qed.

(** Texts with no bracket left open. *)
Inductive unopened : list char_class -> Prop :=
| uo_bal b : balanced b -> unopened b
| uo_close u b : unopened u -> balanced b -> unopened (u ++ ClClose :: b).

(** [openstk ks stk]: the brackets still open in [ks] are at [stk], innermost first. *)
Inductive openstk : list char_class -> list nat -> Prop :=
| os_nil u : unopened u -> openstk u []
| os_cons ks stk b : openstk ks stk -> balanced b ->
    openstk (ks ++ ClOpen :: b) (List.length ks :: stk).

Lemma openstk_app ks stk b : openstk ks stk -> balanced b -> openstk (ks ++ b) stk.
Proof.
  intros H Hb. destruct H as [u H|ks stk b0 H H0].
  - constructor. destruct H as [b0 H|u b0 H H0].
    + constructor. now apply balanced_app.
    + rewrite <- app_assoc. cbn. constructor; [assumption|now apply balanced_app].
  - rewrite <- app_assoc. cbn. constructor; [assumption|now apply balanced_app].
Qed.

Lemma unopened_suffix u : unopened u -> forall n, (depth (skipn n u) <= 0)%Z.
Proof.
  induction 1 as [b Hb|u b Hu IH Hb]; intros n.
  - now apply balanced_suffix.
  - rewrite skipn_app, depth_app. specialize (IH n).
    destruct (n - List.length u) as [|m].
    + cbn. rewrite (balanced_depth _ Hb). lia.
    + cbn. pose proof (balanced_suffix _ Hb m). lia.
Qed.

(** An open bracket's tail never dips below its own depth. *)
Lemma openstk_tail ks stk : openstk ks stk -> forall p, In p stk ->
  exists before tail, ks = before ++ ClOpen :: tail /\ p = List.length before /\
    forall n, (0 <= depth (firstn n tail))%Z.
Proof.
  induction 1 as [u H|ks stk b H IH Hb]; intros p Hin; [destruct Hin|].
  destruct Hin as [<-|Hin].
  - exists ks, b. repeat split; auto. now apply balanced_prefix.
  - destruct (IH p Hin) as (before & tail & -> & -> & Ht).
    exists before, (tail ++ ClOpen :: b). rewrite <- app_assoc. repeat split.
    intros n. rewrite firstn_app, depth_app. specialize (Ht n).
    destruct (n - List.length tail) as [|m]; [cbn; lia|].
    rewrite firstn_cons. cbn [depth dz]. pose proof (balanced_prefix _ Hb m). lia.
Qed.

Lemma open_no_match ks stk p j :
  openstk ks stk -> In p stk -> bracket_match ks p j -> False.
Proof.
  intros H Hin (b & n & a & E & I & J & B).
  destruct (openstk_tail _ _ H p Hin) as (before & tail & E2 & I2 & Ht).
  rewrite E in E2. apply app_len_inj in E2 as [Eb El]; [|lia]. injection El as El.
  specialize (Ht (S (List.length n))). rewrite <- El in Ht.
  rewrite firstn_app in Ht. rewrite firstn_all2 in Ht by lia.
  replace (S (List.length n) - List.length n) with 1 in Ht by lia.
  rewrite depth_app, (balanced_depth _ B) in Ht. cbn in Ht. lia.
Qed.

Lemma close_no_match ks u r i :
  ks = u ++ ClClose :: r -> unopened u -> bracket_match ks i (List.length u) -> False.
Proof.
  intros E Hu (b & n & a & E2 & I & J & B).
  assert (Hu' : u = b ++ ClOpen :: n).
  { assert (F : firstn (List.length u) ks = u).
    { rewrite E, firstn_app, firstn_all, Nat.sub_diag. cbn. now rewrite app_nil_r. }
    rewrite <- F, E2. replace (b ++ ClOpen :: n ++ ClClose :: a) with ((b ++ ClOpen :: n) ++ ClClose :: a)
      by now rewrite <- app_assoc.
    apply firstn_len_app. rewrite app_length; cbn; lia. }
  pose proof (unopened_suffix _ Hu (List.length b)) as P.
  rewrite Hu', skipn_app, skipn_all, Nat.sub_diag in P. cbn in P.
  rewrite (balanced_depth _ B) in P. lia.
Qed.

Definition kls (ls : list lexeme) : list char_class := map (fun l => cat_class (lx_cat l)) ls.

(** The lexer's bracket invariant. *)
Definition br_inv (ls : list lexeme) (stk : list nat) : Prop :=
  openstk (kls ls) stk /\
  forall i l, nth_error ls i = Some l ->
    match lx_cat l with
    | CatOpen (Some j) => bracket_match (kls ls) i j
    | CatOpen None => In i stk
    | CatClose (Some j) => bracket_match (kls ls) j i
    | CatClose None => exists u r, kls ls = u ++ ClClose :: r /\ unopened u /\ i = List.length u
    | _ => True
    end.

Lemma bracket_match_app ks r i j : bracket_match ks i j -> bracket_match (ks ++ r) i j.
Proof.
  intros (b & n & a & -> & -> & -> & B).
  exists b, n, (a ++ r). repeat split; auto.
  rewrite <- app_assoc. cbn. now rewrite <- app_assoc.
Qed.

Lemma kls_app a b : kls (a ++ b) = kls a ++ kls b.
Proof. apply map_app. Qed.
Lemma kls_length ls : List.length (kls ls) = List.length ls.
Proof. apply map_length. Qed.
Lemma kls_upd i cp ls : kls (upd_nth i (set_closing cp) ls) = kls ls.
Proof.
  apply map_upd_nth_same. intros [t c]. unfold set_closing. cbn. now destruct c.
Qed.

Lemma openstk_in_lt ks stk p : openstk ks stk -> In p stk -> p < List.length ks.
Proof.
  intros H Hin. destruct (openstk_tail _ _ H p Hin) as (b & t & -> & -> & _).
  rewrite app_length. cbn. lia.
Qed.

Lemma br_inv_push_other ls stk l :
  br_inv ls stk -> cat_class (lx_cat l) <> ClOpen -> cat_class (lx_cat l) <> ClClose ->
  br_inv (ls ++ [l]) stk.
Proof.
  intros [H1 H2] Ho Hc. split.
  - rewrite kls_app. apply openstk_app; auto. cbn. constructor; auto. constructor.
  - intros i l' Hn. destruct (Nat.lt_ge_cases i (List.length ls)) as [L|L].
    + rewrite nth_error_app1 in Hn by lia. specialize (H2 _ _ Hn). rewrite kls_app.
      destruct (lx_cat l') as [| |[j|]|[j|]]; auto using bracket_match_app.
      destruct H2 as (u & r & -> & Hu & ->).
      exists u, (r ++ kls [l]). rewrite <- app_assoc. cbn. auto.
    + rewrite nth_error_app2 in Hn by lia.
      assert (Hl : l' = l).
      { destruct (i - List.length ls) as [|[|m]]; cbn in Hn; congruence. }
      subst l'. destruct (lx_cat l); cbn in *; auto; contradiction.
Qed.

(** Replacing the last lexeme by one of the same class keeps the invariant. *)
Lemma br_inv_replace ls stk l l' :
  br_inv (ls ++ [l]) stk -> cat_class (lx_cat l) = cat_class (lx_cat l') ->
  cat_class (lx_cat l) <> ClOpen -> cat_class (lx_cat l) <> ClClose ->
  br_inv (ls ++ [l']) stk.
Proof.
  intros [H1 H2] E Ho Hc.
  assert (K : kls (ls ++ [l]) = kls (ls ++ [l'])).
  { rewrite !kls_app. cbn. now rewrite E. }
  split; [now rewrite <- K|]. rewrite <- K.
  intros i l0 Hn. destruct (Nat.lt_ge_cases i (List.length ls)) as [L|L].
  - apply H2. rewrite nth_error_app1 in * by lia. exact Hn.
  - rewrite nth_error_app2 in Hn by lia.
    assert (l0 = l') as ->.
    { destruct (i - List.length ls) as [|[|m]]; cbn in Hn; congruence. }
    rewrite E in Ho, Hc. destruct (lx_cat l'); cbn in *; auto; contradiction.
Qed.

Lemma lex_step_brackets kf ls stk c ls' stk' :
  br_inv ls stk -> lex_step kf (ls, stk) c = Ok (ls', stk') -> br_inv ls' stk'.
Proof.
  intros H. unfold lex_step.
  destruct (N.eqb c c_open).
  { intros E; injection E as <- <-. destruct H as [H1 H2]. split.
    - rewrite kls_app. cbn. rewrite <- (kls_length ls). constructor; [assumption|constructor].
    - intros i l Hn. destruct (Nat.lt_ge_cases i (List.length ls)) as [L|L].
      + rewrite nth_error_app1 in Hn by lia. specialize (H2 _ _ Hn). rewrite kls_app.
        destruct (lx_cat l) as [| |[j|]|[j|]]; auto using bracket_match_app.
        * now right.
        * destruct H2 as (u & r & -> & Hu & ->).
          exists u, (r ++ [ClOpen]). rewrite <- app_assoc. cbn. auto.
      + rewrite nth_error_app2 in Hn by lia.
        destruct (i - List.length ls) as [|[|m]] eqn:Em; cbn in Hn; try discriminate.
        injection Hn as <-. cbn. left. lia. }
  destruct (N.eqb c c_close).
  { destruct stk as [|op stk0].
    - intros E; injection E as <- <-. destruct H as [H1 H2].
      assert (Hu : unopened (kls ls)). { inversion H1; subst; assumption. }
      split.
      + rewrite kls_app. cbn. constructor. constructor; [assumption|constructor].
      + intros i l Hn. destruct (Nat.lt_ge_cases i (List.length ls)) as [L|L].
        * rewrite nth_error_app1 in Hn by lia. specialize (H2 _ _ Hn). rewrite kls_app.
          destruct (lx_cat l) as [| |[j|]|[j|]]; auto using bracket_match_app.
          destruct H2 as (u & r & -> & Hu' & ->).
          exists u, (r ++ [ClClose]). rewrite <- app_assoc. cbn. auto.
        * rewrite nth_error_app2 in Hn by lia.
          destruct (i - List.length ls) as [|[|m]] eqn:Em; cbn in Hn; try discriminate.
          injection Hn as <-. cbn. exists (kls ls), []. rewrite kls_app, kls_length. cbn.
          repeat split; auto. lia.
    - destruct (Nat.ltb_spec op (List.length ls)) as [Lop|]; [|discriminate].
      intros E; injection E as <- <-. destruct H as [H1 H2].
      inversion H1 as [|ks stk1 b Hos Hb Eks Estk]. subst stk1 op.
      assert (Hks : kls (upd_nth (List.length ks) (set_closing (List.length ls)) ls
                         ++ [mkLexeme [c] (CatClose (Some (List.length ks)))])
                    = ks ++ ClOpen :: b ++ [ClClose]).
      { rewrite kls_app, kls_upd, <- Eks, <- app_assoc. reflexivity. }
      assert (Hmatch : bracket_match (ks ++ ClOpen :: b ++ [ClClose]) (List.length ks) (List.length ls)).
      { exists ks, b, []. repeat split; auto.
        rewrite <- (kls_length ls), <- Eks, app_length. cbn. lia. }
      assert (Hext : ks ++ ClOpen :: b ++ [ClClose] = kls ls ++ [ClClose]).
      { rewrite <- Eks, <- app_assoc. reflexivity. }
      split; rewrite Hks.
      + apply openstk_app; [assumption|].
        replace (ClOpen :: b ++ [ClClose]) with (ClOpen :: b ++ ClClose :: []) by reflexivity.
        apply bal_pair; [assumption|constructor].
      + intros i l Hn. destruct (Nat.lt_ge_cases i (List.length ls)) as [L|L].
        * rewrite nth_error_app1 in Hn by (rewrite length_upd_nth; lia).
          rewrite nth_error_upd_nth in Hn.
          destruct (Nat.eqb_spec (List.length ks) i) as [Ei|Ei].
          -- destruct (nth_error ls i) as [l0|] eqn:El; [|discriminate].
             cbn in Hn. injection Hn as <-. subst i.
             assert (Hcl : cat_class (lx_cat l0) = ClOpen).
             { assert (G : nth_error (kls ls) (List.length ks) = Some ClOpen).
               { rewrite <- Eks, nth_error_app2, Nat.sub_diag by lia. reflexivity. }
               unfold kls in G. rewrite nth_error_map, El in G. cbn in G. congruence. }
             unfold set_closing. destruct (lx_cat l0); cbn in *; try discriminate.
             exact Hmatch.
          -- specialize (H2 _ _ Hn).
             destruct (lx_cat l) as [| |[j|]|[j|]]; auto.
             ++ rewrite Hext. now apply bracket_match_app.
             ++ destruct H2 as [E|]; [congruence|assumption].
             ++ rewrite Hext. now apply bracket_match_app.
             ++ destruct H2 as (u & r & E & Hu' & ->).
                exists u, (r ++ [ClClose]). rewrite Hext, E, <- app_assoc. cbn. auto.
        * rewrite nth_error_app2 in Hn by (rewrite length_upd_nth; lia).
          rewrite length_upd_nth in Hn.
          destruct (i - List.length ls) as [|[|m]] eqn:Em; cbn in Hn; try discriminate.
          injection Hn as <-. cbn. replace i with (List.length ls) by lia. exact Hmatch. }
  destruct (is_whitespace c).
  { destruct (unsnoc ls) as [[i [t cat]]|] eqn:Eu.
    - apply unsnoc_Some in Eu. subst ls.
      destruct cat; intros E; injection E as <- <-.
      2: { eapply br_inv_replace; [exact H| | |]; cbn; try reflexivity; discriminate. }
      all: apply br_inv_push_other; auto; discriminate.
    - intros E; injection E as <- <-. apply br_inv_push_other; auto; discriminate. }
  destruct (unsnoc ls) as [[i [t cat]]|] eqn:Eu.
  - apply unsnoc_Some in Eu. subst ls.
    destruct cat.
    + destruct (kf (t ++ [c])); try discriminate. cbn [obind].
      intros E; injection E as <- <-.
      eapply br_inv_replace; [exact H| | |]; cbn; try reflexivity; discriminate.
    + destruct (kf [c]); try discriminate. cbn [obind].
      intros E; injection E as <- <-. apply br_inv_push_other; auto; discriminate.
    + destruct (kf [c]); try discriminate. cbn [obind].
      intros E; injection E as <- <-. apply br_inv_push_other; auto; discriminate.
    + destruct (kf [c]); try discriminate. cbn [obind].
      intros E; injection E as <- <-. apply br_inv_push_other; auto; discriminate.
  - destruct (kf [c]); try discriminate. cbn [obind].
    intros E; injection E as <- <-. apply br_inv_push_other; auto; discriminate.
Qed.

Lemma lex_br_inv kf s ls : lex kf s = Ok ls -> exists stk, br_inv ls stk.
Proof.
  unfold lex. destruct (lex_loop kf ([], []) s) as [[l' stk']| | |] eqn:E; try discriminate.
  cbn. intros H; injection H as <-. exists stk'.
  assert (G : forall cs st ls' stk', br_inv (fst st) (snd st) -> lex_loop kf st cs = Ok (ls', stk') -> br_inv ls' stk').
  { induction cs as [|c cs IH]; intros [ls stk] ls' stk'' Hc Hl; cbn [lex_loop fst snd] in *.
    - injection Hl as <- <-. exact Hc.
    - destruct (lex_step kf (ls, stk) c) as [[ls1 stk1]| | |] eqn:Es; try discriminate.
      cbn [obind] in Hl. eapply IH; [|exact Hl]. cbn. eapply lex_step_brackets; eassumption. }
  eapply G; [|exact E]. cbn. split.
  - cbn. constructor. constructor. constructor.
  - intros [|i] l; discriminate.
Qed.

Lemma lex_open_lemma kf s ls i l o :
  lex kf s = Ok ls -> nth_error ls i = Some l -> lx_cat l = CatOpen o ->
  forall j, o = Some j <-> bracket_match (map (fun l => cat_class (lx_cat l)) ls) i j.
Proof.
  intros H Hn Hc j. destruct (lex_br_inv _ _ _ H) as [stk [H1 H2]].
  specialize (H2 _ _ Hn). rewrite Hc in H2. fold (kls ls). destruct o as [j'|].
  - split; [intros E; injection E as <-; exact H2|].
    intros M. f_equal. eapply bracket_match_fun; eassumption.
  - split; [discriminate|]. intros M. exfalso. eapply open_no_match; eassumption.
Qed.

Lemma lex_close_lemma kf s ls i l o :
  lex kf s = Ok ls -> nth_error ls i = Some l -> lx_cat l = CatClose o ->
  forall j, o = Some j <-> bracket_match (map (fun l => cat_class (lx_cat l)) ls) j i.
Proof.
  intros H Hn Hc j. destruct (lex_br_inv _ _ _ H) as [stk [H1 H2]].
  specialize (H2 _ _ Hn). rewrite Hc in H2. fold (kls ls). destruct o as [j'|].
  - split; [intros E; injection E as <-; exact H2|].
    intros M. f_equal. eapply bracket_match_inj; eassumption.
  - split; [discriminate|]. intros M. exfalso.
    destruct H2 as (u & r & E & Hu & ->). eapply close_no_match; eassumption.
Qed.

(** ** The lexer itself never fails *)
Lemma lex_step_fails kf ls stk c :
  (forall p, In p stk -> p < List.length ls) ->
  (forall t, exists k, kf t = Ok k) ->
  exists ls' stk', lex_step kf (ls, stk) c = Ok (ls', stk').
Proof.
  intros Hs Hk. unfold lex_step.
  destruct (N.eqb c c_open); [eauto|].
  destruct (N.eqb c c_close).
  { destruct stk as [|op stk]; [eauto|].
    destruct (Nat.ltb_spec op (List.length ls)) as [|L]; [eauto|].
    specialize (Hs op (or_introl eq_refl)). lia. }
  destruct (is_whitespace c).
  { destruct (unsnoc ls) as [[i [t [ | | | ]]]|]; eauto. }
  destruct (unsnoc ls) as [[i [t [ | | | ]]]|].
  1: destruct (Hk (t ++ [c])) as [k1 ->]; cbn; eauto.
  all: destruct (Hk [c]) as [k1 ->]; cbn; eauto.
Qed.

Lemma lex_total_lemma kf s :
  (forall t, exists k, kf t = Ok k) -> exists ls, lex kf s = Ok ls.
Proof.
  intros Hk. unfold lex.
  assert (G : forall cs ls stk, br_inv ls stk ->
     exists ls' stk', lex_loop kf (ls, stk) cs = Ok (ls', stk')).
  { induction cs as [|c cs IH]; intros ls stk Hi; cbn [lex_loop]; [eauto|].
    destruct (lex_step_fails kf ls stk c) as (ls1 & stk1 & E).
    - intros p Hp. rewrite <- (kls_length ls). eapply openstk_in_lt; [apply Hi|exact Hp].
    - exact Hk.
    - rewrite E. cbn. apply IH. eapply lex_step_brackets; eassumption. }
  destruct (G s [] []) as (ls' & stk' & E).
  - split; [repeat constructor|]. intros [|i] l; discriminate.
  - rewrite E. cbn. eauto.
Qed.
