(** From the text of a command to its bracketed structure: what the later stages see. *)
From Verif Require Import Lexer LexerSpec LexerFacts Nester NesterSpec NesterFacts CommandSpec.
From Coq Require Import String List NArith.
Import ListNotations.
Local Open Scope zia_scope.

(** ** What the lexer does, seen through the significant tokens *)
Definition open_end (ls : list lexeme) : bool :=
  match unsnoc ls with Some (_, {| lx_cat := CatConcept _ |}) => true | _ => false end.
(** The kinds asked for while a symbol is read character by character: of each prefix. *)
Fixpoint kind_of_prefixes (kf : text -> outcome concept_kind) (seen rest : text) (k : concept_kind)
  : outcome concept_kind :=
  match rest with
  | [] => Ok k
  | c :: rest => k <- kf (seen ++ [c]) ;; kind_of_prefixes kf (seen ++ [c]) rest k
  end.
Fixpoint lex_view (kf : text -> outcome concept_kind) (acc : list tok)
    (ts : list (char_class * text)) : outcome (list tok) :=
  match ts with
  | [] => Ok acc
  | (ClOpen, _) :: ts => lex_view kf (acc ++ [TOpen]) ts
  | (ClClose, _) :: ts => lex_view kf (acc ++ [TClose]) ts
  | (ClSpace, _) :: ts => lex_view kf acc ts
  | (ClSymbol, t) :: ts =>
    k <- kind_of_prefixes kf [] t KNew ;; lex_view kf (acc ++ [TSym k t]) ts
  end.
Lemma lex_view_significant kf ts : forall acc, lex_view kf acc ts = lex_view kf acc (significant ts).
Proof.
  induction ts as [|[[] t] ts IH]; intros acc; cbn; auto.
  destruct (kind_of_prefixes kf [] t KNew); cbn; auto.
Qed.

Definition bounded (st : list lexeme * list nat) : Prop :=
  forall i, In i (snd st) -> i < List.length (fst st).
Lemma toks_app a b : toks (a ++ b) = toks a ++ toks b.
Proof. apply flat_map_app. Qed.
Lemma toks_closing ls : forall i cp, toks (upd_nth i (set_closing cp) ls) = toks ls.
Proof.
  induction ls as [|l ls IH]; intros [|i] cp; cbn; auto.
  - f_equal. unfold set_closing, tok_of. destruct (lx_cat l) eqn:E; cbn; rewrite ?E; reflexivity.
  - unfold toks in IH. now rewrite IH.
Qed.
Lemma open_end_snoc ls l : open_end (ls ++ [l]) = match lx_cat l with CatConcept _ => true | _ => false end.
Proof. unfold open_end. rewrite unsnoc_app. destruct l as [t []]; reflexivity. Qed.

Lemma step_open kf ls stk c :
  class_of c = ClOpen -> bounded (ls, stk) ->
  exists st, lex_step kf (ls, stk) c = Ok st /\ toks (fst st) = toks ls ++ [TOpen] /\
             open_end (fst st) = false /\ bounded st.
Proof.
  intros C B. rewrite class_of_cases in C. unfold lex_step.
  destruct (N.eqb c c_open); [|destruct (N.eqb c c_close); [|destruct (is_whitespace c)]; discriminate].
  eexists. split; [reflexivity|]. cbn [fst]. rewrite toks_app, open_end_snoc. repeat split.
  intros i [<-|I]; cbn [fst snd] in *; rewrite app_length; cbn; [lia|].
  specialize (B i I). cbn in B. lia.
Qed.
Lemma step_close kf ls stk c :
  class_of c = ClClose -> bounded (ls, stk) ->
  exists st, lex_step kf (ls, stk) c = Ok st /\ toks (fst st) = toks ls ++ [TClose] /\
             open_end (fst st) = false /\ bounded st.
Proof.
  intros C B. rewrite class_of_cases in C. unfold lex_step.
  destruct (N.eqb c c_open); [discriminate|].
  destruct (N.eqb c c_close); [|destruct (is_whitespace c); discriminate].
  destruct stk as [|op stk].
  - eexists. split; [reflexivity|]. cbn [fst]. rewrite toks_app, open_end_snoc. repeat split.
    intros i [].
  - destruct (Nat.ltb_spec op (List.length ls)) as [L|L].
    + eexists. split; [reflexivity|]. cbn [fst]. rewrite toks_app, open_end_snoc, toks_closing.
      repeat split. intros i I. cbn [fst snd] in *. rewrite app_length, length_upd_nth. cbn.
      specialize (B i (or_intror I)). cbn in B. lia.
    + specialize (B op (or_introl eq_refl)). cbn in B. lia.
Qed.
Lemma step_space kf ls stk c :
  class_of c = ClSpace -> bounded (ls, stk) ->
  exists st, lex_step kf (ls, stk) c = Ok st /\ toks (fst st) = toks ls /\
             open_end (fst st) = false /\ bounded st.
Proof.
  intros C B. rewrite class_of_cases in C. unfold lex_step.
  destruct (N.eqb c c_open); [discriminate|]. destruct (N.eqb c c_close); [discriminate|].
  destruct (is_whitespace c); [|discriminate].
  assert (Z : exists st, Ok (ls ++ [mkLexeme [c] CatWhitespace], stk) = Ok st /\ toks (fst st) = toks ls /\
             open_end (fst st) = false /\ bounded st).
  { eexists. split; [reflexivity|]. cbn [fst]. rewrite toks_app, open_end_snoc.
    split; [apply app_nil_r|]. split; [reflexivity|]. intros i I. cbn [fst snd] in *.
    rewrite app_length. specialize (B i I). cbn in *. lia. }
  destruct (unsnoc ls) as [[i [t []]]|] eqn:E; try exact Z. apply unsnoc_Some in E. subst ls.
  eexists. split; [reflexivity|]. cbn [fst]. rewrite !toks_app, open_end_snoc.
  repeat split. intros j I. specialize (B j I). cbn [fst snd] in *. rewrite app_length in *. cbn in *. lia.
Qed.
Lemma step_symbol_new kf ls stk c :
  class_of c = ClSymbol -> bounded (ls, stk) -> open_end ls = false ->
  lex_step kf (ls, stk) c =
    (k <- kf [c] ;; Ok (ls ++ [mkLexeme [c] (CatConcept k)], stk)).
Proof.
  intros C B O. rewrite class_of_cases in C. unfold lex_step.
  destruct (N.eqb c c_open); [discriminate|]. destruct (N.eqb c c_close); [discriminate|].
  destruct (is_whitespace c); [discriminate|]. unfold open_end in O.
  destruct (unsnoc ls) as [[i [t []]]|] eqn:E; try reflexivity. discriminate.
Qed.
Lemma step_symbol_more kf ls stk c t k :
  class_of c = ClSymbol ->
  lex_step kf (ls ++ [mkLexeme t (CatConcept k)], stk) c =
    (k <- kf (t ++ [c]) ;; Ok (ls ++ [mkLexeme (t ++ [c]) (CatConcept k)], stk)).
Proof.
  intros C. rewrite class_of_cases in C. unfold lex_step.
  destruct (N.eqb c c_open); [discriminate|]. destruct (N.eqb c c_close); [discriminate|].
  destruct (is_whitespace c); [discriminate|]. rewrite unsnoc_app. reflexivity.
Qed.

Lemma lex_loop_app kf a : forall st b,
  lex_loop kf st (a ++ b) = (st <- lex_loop kf st a ;; lex_loop kf st b).
Proof.
  induction a as [|c a IH]; intros st b; cbn; [reflexivity|].
  destruct (lex_step kf st c); cbn; auto.
Qed.
Lemma loop_symbol_more kf ls stk rest : forall t k,
  (forall c, In c rest -> class_of c = ClSymbol) ->
  lex_loop kf (ls ++ [mkLexeme t (CatConcept k)], stk) rest =
    (k <- kind_of_prefixes kf t rest k ;; Ok (ls ++ [mkLexeme (t ++ rest) (CatConcept k)], stk)).
Proof.
  induction rest as [|c rest IH]; intros t k H; cbn [lex_loop kind_of_prefixes].
  - cbn. now rewrite app_nil_r.
  - rewrite step_symbol_more by (apply H; now left). destruct (kf (t ++ [c])); try reflexivity.
    cbn [obind]. rewrite IH by (intros x I; apply H; now right). rewrite <- app_assoc. reflexivity.
Qed.
Lemma loop_spaces kf rest : forall ls stk,
  (forall c, In c rest -> class_of c = ClSpace) -> rest <> [] -> bounded (ls, stk) ->
  exists st, lex_loop kf (ls, stk) rest = Ok st /\ toks (fst st) = toks ls /\
             open_end (fst st) = false /\ bounded st.
Proof.
  induction rest as [|c rest IH]; intros ls stk H N B; [contradiction|]. cbn [lex_loop].
  destruct (step_space kf ls stk c) as ([ls1 stk1] & -> & T & O & B1); [apply H; now left|exact B|].
  cbn [obind]. destruct rest as [|c2 rest].
  - cbn. eauto.
  - destruct (IH ls1 stk1) as (st & -> & T2 & R); [intros x I; apply H; now right|discriminate|exact B1|].
    exists st. split; [reflexivity|]. split; [cbn in T; rewrite T2; exact T|exact R].
Qed.

(** Reading a whole token. *)
Lemma loop_token kf ls stk k t :
  is_token k t -> bounded (ls, stk) -> (k = ClSymbol -> open_end ls = false) ->
  match lex_view kf (toks ls) [(k, t)] with
  | Ok acc => exists st, lex_loop kf (ls, stk) t = Ok st /\ toks (fst st) = acc /\
                (open_end (fst st) = true -> k = ClSymbol) /\ bounded st
  | Err e => lex_loop kf (ls, stk) t = Err e
  | Panic s => lex_loop kf (ls, stk) t = Panic s
  | OutOfFuel => lex_loop kf (ls, stk) t = OutOfFuel
  end.
Proof.
  intros (N & C & L) B O. destruct k; cbn [lex_view].
  - destruct t as [|c [|]]; [contradiction| |discriminate (L (or_introl eq_refl))]. cbn [lex_loop].
    destruct (step_open kf ls stk c) as (st & -> & T & Op & B1); [apply C; now left|exact B|].
    exists st. split; [reflexivity|]. split; [exact T|]. split; [|exact B1]. intros K; rewrite Op in K; discriminate K.
  - destruct t as [|c [|]]; [contradiction| |discriminate (L (or_intror eq_refl))]. cbn [lex_loop].
    destruct (step_close kf ls stk c) as (st & -> & T & Op & B1); [apply C; now left|exact B|].
    exists st. split; [reflexivity|]. split; [exact T|]. split; [|exact B1]. intros K; rewrite Op in K; discriminate K.
  - destruct (loop_spaces kf t ls stk C N B) as (st & -> & T & Op & B1).
    exists st. split; [reflexivity|]. split; [exact T|]. split; [|exact B1]. intros K; rewrite Op in K; discriminate K.
  - destruct t as [|c t]; [contradiction|]. cbn [lex_loop kind_of_prefixes app].
    rewrite step_symbol_new; [|apply C; now left|exact B|apply O; reflexivity].
    destruct (kf [c]) as [k| | |]; try reflexivity. cbn [obind].
    rewrite loop_symbol_more by (intros x I; apply C; now right).
    destruct (kind_of_prefixes kf [c] t k) as [k'| | |]; try reflexivity. cbn [obind lex_view].
    eexists. split; [reflexivity|]. cbn [fst]. rewrite toks_app. split; [reflexivity|].
    split; [auto|]. intros i I. specialize (B i I). cbn [fst snd] in *. rewrite app_length. cbn. lia.
Qed.
Lemma lex_view_cons kf acc x ts :
  lex_view kf acc (x :: ts) = (acc <- lex_view kf acc [x] ;; lex_view kf acc ts).
Proof.
  destruct x as [[] t]; cbn; try reflexivity. destruct (kind_of_prefixes kf [] t KNew); reflexivity.
Qed.
Lemma loop_tokens kf ts : forall ls stk,
  (forall k t, In (k, t) ts -> is_token k t) -> no_merge (map fst ts) -> bounded (ls, stk) ->
  (open_end ls = true -> match ts with (ClSymbol, _) :: _ => False | _ => True end) ->
  omap (fun st => toks (fst st)) (lex_loop kf (ls, stk) (concat (map snd ts))) = lex_view kf (toks ls) ts.
Proof.
  induction ts as [|[k t] ts IH]; intros ls stk H M B O; [reflexivity|].
  cbn [map snd concat]. rewrite lex_loop_app, lex_view_cons.
  assert (O1 : k = ClSymbol -> open_end ls = false).
  { intros ->. destruct (open_end ls); [destruct O; reflexivity|reflexivity]. }
  pose proof (loop_token kf ls stk k t (H k t (or_introl eq_refl)) B O1) as T.
  destruct (lex_view kf (toks ls) [(k, t)]) as [acc|e|p|]; try (rewrite T; reflexivity).
  destruct T as ([ls1 stk1] & -> & T & Op & B1). cbn [obind]. rewrite (IH ls1 stk1).
  - cbn [fst] in T. rewrite T. reflexivity.
  - intros k' t' I. apply H. now right.
  - intros i k' E1 E2. apply (M (S i) k'); assumption.
  - exact B1.
  - cbn [fst] in Op. intros E. specialize (Op E). subst k. destruct ts as [|[[] t'] ts]; try exact I.
    destruct (M 0 ClSymbol eq_refl eq_refl); discriminate.
Qed.
Lemma lex_by_tokens kf s ts :
  tokenisation s ts -> omap toks (lex kf s) = lex_view kf [] ts.
Proof.
  intros (E & H & M). subst s.
  change (lex_view kf [] ts) with (lex_view kf (toks []) ts).
  rewrite <- (loop_tokens kf ts [] []); [|exact H|exact M|intros i []|discriminate].
  unfold lex, omap. destruct (lex_loop kf ([], []) (concat (map snd ts))); reflexivity.
Qed.

(** The bracketed structure of a command only depends on its significant tokens. *)
Definition read_command (kf : text -> outcome concept_kind) (s : text) : outcome nested :=
  ls <- lex kf s ;; nest ls.
Lemma read_command_same kf s1 s2 : same_tokens s1 s2 -> read_command kf s1 = read_command kf s2.
Proof.
  intros (ts1 & ts2 & T1 & T2 & E). unfold read_command.
  pose proof (lex_by_tokens kf s1 ts1 T1) as L1. pose proof (lex_by_tokens kf s2 ts2 T2) as L2.
  rewrite lex_view_significant in L1, L2. rewrite E, <- L2 in L1. unfold omap in L1.
  destruct (lex kf s1) as [l1| | |], (lex kf s2) as [l2| | |]; cbn [obind] in *; try congruence.
  apply nest_whitespace_lemma. congruence.
Qed.

(** ** Bracket structure *)
Definition tok_class (t : tok) : char_class :=
  match t with TSym _ _ => ClSymbol | TOpen => ClOpen | TClose => ClClose end.
Lemma well_bracketed_proper_items is :
  nonempty_groups is -> is <> [] -> proper (map tok_class (render is)).
Proof.
  intros G. induction G as [|k t is G IH|g is N G1 IH1 G2 IH2]; intros E; [contradiction| |].
  - cbn. destruct is as [|i is]; [apply pr_symbol|].
    apply (pr_append [ClSymbol]); [apply pr_symbol|]. apply IH. discriminate.
  - cbn [render flat_map render1]. rewrite map_app. cbn [map tok_class]. rewrite map_app. cbn [map tok_class].
    assert (P : proper (ClOpen :: map tok_class (render g) ++ [ClClose])) by (apply pr_group, IH1, N).
    destruct is as [|i is].
    + cbn. rewrite app_nil_r. exact P.
    + apply pr_append; [exact P|]. apply IH2. discriminate.
Qed.
Lemma nonempty_groups_app a b : nonempty_groups a -> nonempty_groups b -> nonempty_groups (a ++ b).
Proof. intros G K; induction G; cbn; [exact K|constructor; auto|constructor; auto]. Qed.
Lemma proper_well_bracketed ks :
  proper ks -> forall ts, map tok_class ts = ks -> exists is, well_bracketed ts is.
Proof.
  intros P. induction P as [|ks P IH|k1 k2 P1 IH1 P2 IH2]; intros ts E.
  - destruct ts as [|[] [|]]; try discriminate. exists [Atom k t].
    split; [discriminate|]. split; [repeat constructor|reflexivity].
  - destruct ts as [|[] ts]; try discriminate. cbn in E. injection E as E.
    apply map_eq_app in E. destruct E as (a & b & -> & Ea & Eb).
    destruct b as [|[] [|]]; try discriminate. destruct (IH a Ea) as (g & N & G & ->).
    exists [Group g]. split; [discriminate|]. split; [repeat constructor; auto|].
    cbn. now rewrite app_nil_r.
  - apply map_eq_app in E. destruct E as (a & b & -> & Ea & Eb).
    destruct (IH1 a Ea) as (g1 & N1 & G1 & ->). destruct (IH2 b Eb) as (g2 & N2 & G2 & ->).
    exists (g1 ++ g2). split; [destruct g1; [contradiction|discriminate]|].
    split; [now apply nonempty_groups_app|]. unfold render. now rewrite flat_map_app.
Qed.
Lemma lex_view_classes kf ts : forall acc r,
  lex_view kf acc ts = Ok r -> map tok_class r = map tok_class acc ++ map fst (significant ts).
Proof.
  induction ts as [|[[] t] ts IH]; intros acc r E; cbn in E |- *.
  - injection E as <-. now rewrite app_nil_r.
  - rewrite (IH _ _ E), map_app, <- app_assoc. reflexivity.
  - rewrite (IH _ _ E), map_app, <- app_assoc. reflexivity.
  - apply (IH _ _ E).
  - destruct (kind_of_prefixes kf [] t KNew); try discriminate. cbn [obind] in E.
    rewrite (IH _ _ E), map_app, <- app_assoc. reflexivity.
Qed.
Lemma lex_proper kf s ls :
  lex kf s = Ok ls -> (properly_bracketed s <-> exists is, well_bracketed (toks ls) is).
Proof.
  intros E. pose proof (lex_tokenisation_lemma kf s ls E) as T.
  pose proof (lex_by_tokens kf s _ T) as V. rewrite E in V. cbn [omap obind] in V.
  symmetry in V. apply lex_view_classes in V. cbn [map app] in V. split.
  - intros (ts & T' & P). rewrite (tokenisation_unique_lemma s _ _ T' T) in P.
    rewrite <- V in P. exact (proper_well_bracketed _ P _ eq_refl).
  - intros (is & N & G & R). eexists. split; [exact T|]. rewrite <- V, R.
    now apply well_bracketed_proper_items.
Qed.
Lemma read_improper kf s ls :
  lex kf s = Ok ls -> ~ properly_bracketed s ->
  exists e, (e = EmptyParentheses \/ e = UnmatchedParentheses \/ e = EmptyExpression) /\
            nest ls = Err e.
Proof.
  intros E P. rewrite (lex_proper kf s ls E), <- nest_iff_lemma in P.
  pose proof (nest_errors ls) as N. destruct (nest ls) as [n|e| |].
  - destruct P. eauto.
  - eauto.
  - contradiction.
  - contradiction.
Qed.
