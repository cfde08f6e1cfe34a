(** Proofs about bracket nesting. *)
From Verif Require Import Lexer LexerSpec LexerFacts Nester NesterSpec MapFacts.
From Coq Require Import String List NArith Lia.
Import ListNotations.
Local Open Scope zia_scope.

(** ** The structure [nest] builds for a list of items *)
Fixpoint item_node (i : item) : nested :=
  match i with
  | Atom k t => from_concept_kind k t
  | Group g =>
    nest_node (match g with
               | [] => NParent [] []
               | i0 :: is => fold_left append_node (map item_node is) (item_node i0)
               end)
  end.
Definition build (g : list item) : nested :=
  match g with
  | [] => NParent [] []
  | i0 :: is => fold_left append_node (map item_node is) (item_node i0)
  end.

Lemma item_node_group g : item_node (Group g) = nest_node (build g).
Proof. destruct g; reflexivity. Qed.

Lemma build_snoc g i :
  build (g ++ [i]) = match g with [] => item_node i | _ => append_node (build g) (item_node i) end.
Proof.
  destruct g as [|i0 g]; cbn [build app]; [reflexivity|].
  rewrite map_app, fold_left_app. reflexivity.
Qed.

(** ** Simulation: the loop state as a stack of item lists, innermost first *)
Definition frame_at (fs : list (list item)) (d : nat) : list item :=
  nth d (rev fs) [].

(** The map holds [build f] for each non-empty frame. *)
Definition st_rep (st : nest_state) (fs : list (list item)) : Prop :=
  let '(m, d) := st in
  List.length fs = S d /\
  forall k, aget Nat.eqb k m =
    match frame_at fs k with [] => None | f => Some (build f) end.

Lemma frame_at_head f fs : frame_at (f :: fs) (List.length fs) = f.
Proof.
  unfold frame_at. cbn [rev]. rewrite app_nth2; rewrite rev_length; [|lia].
  now rewrite Nat.sub_diag.
Qed.

Lemma frame_at_tail f fs k : k < List.length fs -> frame_at (f :: fs) k = frame_at fs k.
Proof. intros H. unfold frame_at. cbn [rev]. apply app_nth1. now rewrite rev_length. Qed.

Lemma frame_at_beyond fs k : List.length fs <= k -> frame_at fs k = [].
Proof. intros H. unfold frame_at. apply nth_overflow. now rewrite rev_length. Qed.

Lemma some_snoc (f : list item) i :
  match f ++ [i] with [] => None | f' => Some (build f') end = Some (build (f ++ [i])).
Proof. destruct f; reflexivity. Qed.

Lemma nat_eqb_spec a b : reflect (a = b) (Nat.eqb a b).
Proof. apply Nat.eqb_spec. Qed.

Lemma st_rep_sym m d f fs l k :
  st_rep (m, d) (f :: fs) -> lx_cat l = CatConcept k ->
  exists st', nest_step (m, d) l = Ok st' /\ st_rep st' ((f ++ [Atom k (lx_text l)]) :: fs).
Proof.
  intros [Hl Hm] Hc. cbn in Hl. unfold nest_step. rewrite Hc.
  rewrite (aget_adel _ nat_eqb_spec), Nat.eqb_refl.
  eexists. split; [reflexivity|]. split; [cbn; exact Hl|].
  intros k'. rewrite (aget_aset _ nat_eqb_spec), (aget_adel _ nat_eqb_spec).
  assert (d = List.length fs) as -> by lia.
  destruct (Nat.eqb_spec k' (List.length fs)) as [->|N].
  - rewrite (Hm (List.length fs)), frame_at_head, frame_at_head, some_snoc, build_snoc.
    destruct f as [|i0 f]; reflexivity.
  - rewrite Hm. destruct (Nat.lt_ge_cases k' (List.length fs)) as [L|L].
    + now rewrite !frame_at_tail by exact L.
    + rewrite !frame_at_beyond by (cbn; lia). reflexivity.
Qed.

Lemma st_rep_open m d fs l o :
  st_rep (m, d) fs -> lx_cat l = CatOpen o ->
  exists st', nest_step (m, d) l = Ok st' /\ st_rep st' ([] :: fs).
Proof.
  intros [Hl Hm] Hc. unfold nest_step. rewrite Hc. eexists. split; [reflexivity|].
  split; [cbn; lia|]. intros k'. rewrite Hm.
  destruct (Nat.lt_ge_cases k' (List.length fs)) as [L|L].
  - now rewrite frame_at_tail by exact L.
  - rewrite frame_at_beyond by lia. destruct (Nat.eq_dec k' (List.length fs)) as [->|N].
    + now rewrite frame_at_head.
    + now rewrite frame_at_beyond by (cbn; lia).
Qed.

Lemma st_rep_close m d f g fs l o :
  st_rep (m, d) (f :: g :: fs) -> f <> [] -> lx_cat l = CatClose o ->
  exists st', nest_step (m, d) l = Ok st' /\ st_rep st' ((g ++ [Group f]) :: fs).
Proof.
  intros [Hl Hm] Hf Hc. cbn in Hl. unfold nest_step. rewrite Hc.
  assert (d = S (List.length fs)) as -> by lia.
  assert (E1 : aget Nat.eqb (S (List.length fs)) m = Some (build f)).
  { rewrite Hm. change (S (List.length fs)) with (List.length (g :: fs)).
    rewrite frame_at_head. destruct f; [contradiction|reflexivity]. }
  rewrite E1. eexists. split; [reflexivity|]. split; [cbn; lia|].
  intros k'. rewrite (aget_aset _ nat_eqb_spec), !(aget_adel _ nat_eqb_spec).
  destruct (Nat.eqb_spec k' (List.length fs)) as [->|N].
  - destruct (Nat.eqb_spec (List.length fs) (S (List.length fs))) as [|_]; [lia|].
    rewrite Hm, frame_at_tail by (cbn; lia). rewrite frame_at_head, frame_at_head, some_snoc, build_snoc, item_node_group.
    destruct g as [|i0 g]; reflexivity.
  - destruct (Nat.eqb_spec k' (S (List.length fs))) as [->|N2].
    + now rewrite frame_at_beyond by (cbn; lia).
    + rewrite Hm. destruct (Nat.lt_ge_cases k' (List.length fs)) as [L|L].
      * rewrite !frame_at_tail by (cbn; lia). reflexivity.
      * rewrite !frame_at_beyond by (cbn; lia). reflexivity.
Qed.

Lemma st_rep_close_err m d f fs l o :
  st_rep (m, d) (f :: fs) -> lx_cat l = CatClose o -> f = [] \/ fs = [] ->
  nest_step (m, d) l = Err EmptyParentheses \/ nest_step (m, d) l = Err UnmatchedParentheses.
Proof.
  intros [Hl Hm] Hc Hf. cbn in Hl. unfold nest_step. rewrite Hc.
  assert (d = List.length fs) as -> by lia.
  rewrite Hm, frame_at_head. destruct f as [|i0 f]; [now left|].
  destruct Hf as [Hf| ->]; [discriminate|]. cbn. now right.
Qed.

(** ** Specification side: what the frames stand for *)
(** Tokens read so far, from a stack of frames (innermost first). *)
Fixpoint unread (fs : list (list item)) : list tok :=
  match fs with
  | [] => []
  | [f] => render f
  | f :: fs' => unread fs' ++ TOpen :: render f
  end.
Definition frames_ok (fs : list (list item)) : Prop :=
  fs <> [] /\ Forall nonempty_groups fs.

Lemma render_app a b : render (a ++ b) = render a ++ render b.
Proof. apply flat_map_app. Qed.

Lemma nonempty_groups_app a b :
  nonempty_groups a -> nonempty_groups b -> nonempty_groups (a ++ b).
Proof. induction 1; cbn; auto; constructor; auto. Qed.

Lemma unread_cons f fs : fs <> [] -> unread (f :: fs) = unread fs ++ TOpen :: render f.
Proof. destruct fs; [contradiction|reflexivity]. Qed.

Lemma toks_cons l ls : toks (l :: ls) = tok_of l ++ toks ls.
Proof. reflexivity. Qed.

(** Soundness of the loop, and the only errors it can give. *)
Lemma nest_loop_sound ls : forall st fs,
  st_rep st fs -> frames_ok fs ->
  match nest_loop st ls with
  | Ok st' => exists fs', st_rep st' fs' /\ frames_ok fs' /\ unread fs' = unread fs ++ toks ls
  | Err e => e = EmptyParentheses \/ e = UnmatchedParentheses
  | _ => False
  end.
Proof.
  induction ls as [|l ls IH]; intros [m d] fs Hr [Hne Hok]; cbn [nest_loop].
  - exists fs. cbn. rewrite app_nil_r. repeat split; auto; apply Hr.
  - rewrite toks_cons. unfold tok_of.
    destruct fs as [|f fs]; [contradiction|].
    inversion Hok as [|? ? Hf Hfs]; subst.
    destruct (lx_cat l) as [k| |o|o] eqn:Hc.
    + destruct (st_rep_sym _ _ _ _ _ _ Hr Hc) as (st' & -> & Hr'). cbn [obind].
      specialize (IH st' _ Hr'). destruct (nest_loop st' ls).
      2-4: apply IH; split; [discriminate|]; constructor; auto;
           apply nonempty_groups_app; auto; repeat constructor.
      destruct IH as (fs' & H1 & H2 & H3).
      { split; [discriminate|]; constructor; auto;
        apply nonempty_groups_app; auto; repeat constructor. }
      exists fs'. repeat split; auto; try apply H2. rewrite H3.
      destruct fs as [|f' fs].
      * cbn. rewrite render_app, <- app_assoc. reflexivity.
      * rewrite (unread_cons (f ++ _)), (unread_cons f) by discriminate.
        rewrite render_app, <- !app_assoc. cbn. rewrite <- !app_assoc. reflexivity.
    + assert (nest_step (m, d) l = Ok (m, d)) as ->. { unfold nest_step. now rewrite Hc. }
      cbn [obind]. apply (IH (m, d) (f :: fs) Hr). split; [discriminate|constructor; auto].
    + destruct (st_rep_open _ _ _ _ _ Hr Hc) as (st' & -> & Hr'). cbn [obind].
      specialize (IH st' _ Hr'). destruct (nest_loop st' ls).
      2-4: apply IH; split; [discriminate|]; constructor; auto; constructor.
      destruct IH as (fs' & H1 & H2 & H3).
      { split; [discriminate|]; constructor; auto; constructor. }
      exists fs'. repeat split; auto; try apply H2. rewrite H3.
      rewrite unread_cons by discriminate. rewrite <- app_assoc. reflexivity.
    + destruct f as [|i0 f].
      { destruct (st_rep_close_err _ _ _ _ _ _ Hr Hc (or_introl eq_refl)) as [-> | ->]; cbn; auto. }
      destruct fs as [|g fs].
      { destruct (st_rep_close_err _ _ _ _ _ _ Hr Hc (or_intror eq_refl)) as [-> | ->]; cbn; auto. }
      assert (Hf0 : i0 :: f <> []) by discriminate.
      destruct (st_rep_close _ _ _ _ _ _ _ Hr Hf0 Hc) as (st' & -> & Hr'). cbn [obind].
      inversion Hfs as [|? ? Hg Hfs']; subst.
      assert (Hok' : frames_ok ((g ++ [Group (i0 :: f)]) :: fs)).
      { split; [discriminate|]. constructor; auto. apply nonempty_groups_app; auto.
        constructor; auto. constructor. }
      specialize (IH st' _ Hr' Hok'). destruct (nest_loop st' ls); auto.
      destruct IH as (fs' & H1 & H2 & H3).
      exists fs'. repeat split; auto; try apply H2. rewrite H3.
      rewrite (unread_cons (i0 :: f)) by discriminate.
      destruct fs as [|f' fs].
      * cbn [unread]. rewrite render_app. cbn [render flat_map render1].
        rewrite app_nil_r, <- !app_assoc. cbn. rewrite <- !app_assoc. reflexivity.
      * rewrite !(unread_cons (_ ++ _)), (unread_cons g) by discriminate. rewrite render_app.
        cbn [render flat_map render1]. rewrite app_nil_r, <- !app_assoc. cbn.
        rewrite <- !app_assoc. cbn. rewrite <- !app_assoc. reflexivity.
Qed.

Lemma st_rep_init : st_rep ([], 0) [[]].
Proof.
  split; [reflexivity|]. intros k. cbn. unfold frame_at. cbn. destruct k as [|[|k]]; reflexivity.
Qed.

Lemma unread_one_frame fs : unread fs = unread fs. Proof. reflexivity. Qed.

(** ** Completeness: rendering a list of items is read back *)
Fixpoint item_size (i : item) : nat :=
  match i with Atom _ _ => 1 | Group g => S (S (fold_right (fun x n => item_size x + n) 0 g)) end.
Definition items_size (g : list item) : nat := fold_right (fun x n => item_size x + n) 0 g.

Lemma item_size_pos i : 1 <= item_size i.
Proof. destruct i; cbn; lia. Qed.

(** [toks ls = render is ++ rest] splits [ls] accordingly. *)
Lemma toks_split ls a b : toks ls = a ++ b -> exists l1 l2, ls = l1 ++ l2 /\ toks l1 = a /\ toks l2 = b.
Proof.
  revert a; induction ls as [|l ls IH]; intros a H.
  - cbn in H. symmetry in H. apply app_eq_nil in H as [-> ->]. exists [], []. auto.
  - rewrite toks_cons in H. destruct a as [|x a].
    + exists [], (l :: ls). rewrite <- toks_cons in H. auto.
    + destruct (tok_of l) as [|y [|z t]] eqn:E.
      * cbn in H. destruct (IH (x :: a) H) as (l1 & l2 & -> & H1 & H2).
        exists (l :: l1), l2. rewrite toks_cons, E. auto.
      * cbn in H. injection H as -> H. destruct (IH a H) as (l1 & l2 & -> & H1 & H2).
        exists (l :: l1), l2. rewrite toks_cons, E, H1. auto.
      * exfalso. unfold tok_of in E. destruct (lx_cat l); discriminate.
Qed.

Lemma nest_loop_app a b st :
  nest_loop st (a ++ b) = (st' <- nest_loop st a ;; nest_loop st' b).
Proof.
  revert st; induction a as [|l a IH]; intros st; cbn; [reflexivity|].
  destruct (nest_step st l); cbn; auto.
Qed.

Lemma nest_loop_blank ls st : toks ls = [] -> nest_loop st ls = Ok st.
Proof.
  revert st; induction ls as [|l ls IH]; intros [m d] H; cbn [nest_loop]; [reflexivity|].
  rewrite toks_cons in H. apply app_eq_nil in H as [H1 H2]. unfold tok_of in H1.
  destruct (lx_cat l) eqn:E; try discriminate.
  unfold nest_step at 1. rewrite E. cbn. auto.
Qed.

Lemma nest_loop_one ls t : toks ls = [t] ->
  exists w1 l w2, ls = w1 ++ l :: w2 /\ toks w1 = [] /\ tok_of l = [t] /\ toks w2 = [].
Proof.
  induction ls as [|l ls IH]; [discriminate|].
  rewrite toks_cons. destruct (tok_of l) as [|y [|z u]] eqn:E; intros H.
  - destruct (IH H) as (w1 & l' & w2 & -> & H1 & H2 & H3).
    exists (l :: w1), l', w2. rewrite toks_cons, E. auto.
  - injection H as -> H. exists [], l, ls. auto.
  - exfalso. unfold tok_of in E. destruct (lx_cat l); discriminate.
Qed.

Lemma nest_loop_complete n : forall is, items_size is <= n -> nonempty_groups is ->
  forall ls st f fs, toks ls = render is -> st_rep st (f :: fs) ->
  exists st', nest_loop st ls = Ok st' /\ st_rep st' ((f ++ is) :: fs).
Proof.
  induction n as [|n IHn]; intros is Hsz Hne ls st f fs Ht Hr.
  - destruct is as [|i is]; [|cbn in Hsz; pose proof (item_size_pos i); lia].
    exists st. rewrite nest_loop_blank by exact Ht. rewrite app_nil_r. auto.
  - destruct is as [|i is].
    { exists st. rewrite nest_loop_blank by exact Ht. rewrite app_nil_r. auto. }
    cbn in Hsz. fold (items_size is) in Hsz.
    change (i :: is) with ([i] ++ is) in Ht. rewrite render_app in Ht.
    apply toks_split in Ht as (l1 & l2 & -> & H1 & H2). rewrite nest_loop_app.
    replace (f ++ i :: is) with ((f ++ [i]) ++ is) by now rewrite <- app_assoc.
    assert (Hfirst : exists st', nest_loop st l1 = Ok st' /\ st_rep st' ((f ++ [i]) :: fs)).
    { destruct i as [k t|g].
      - cbn in H1. apply nest_loop_one in H1 as (w1 & l & w2 & -> & W1 & Hl & W2).
        rewrite nest_loop_app, (nest_loop_blank w1) by exact W1. cbn [obind nest_loop].
        unfold tok_of in Hl. destruct (lx_cat l) as [k'| | |] eqn:Hc; try discriminate.
        injection Hl as <- <-. destruct st as [m d].
        destruct (st_rep_sym _ _ _ _ _ _ Hr Hc) as (st' & -> & Hr'). cbn [obind].
        exists st'. rewrite nest_loop_blank by exact W2. auto.
      - inversion Hne as [| |? ? Hg0 Hg Hrest]; subst.
        unfold render in H1. cbn [flat_map render1] in H1. rewrite app_nil_r in H1.
        change (TOpen :: flat_map render1 g ++ [TClose]) with ([TOpen] ++ (render g ++ [TClose])) in H1.
        apply toks_split in H1 as (la & lb & -> & Ha & Hb).
        apply toks_split in Hb as (lc & ld & -> & Hc' & Hd).
        apply nest_loop_one in Ha as (w1 & l & w2 & -> & W1 & Hl & W2).
        apply nest_loop_one in Hd as (w3 & l' & w4 & -> & W3 & Hl' & W4).
        rewrite !nest_loop_app. rewrite (nest_loop_blank w1) by exact W1. cbn [obind nest_loop].
        unfold tok_of in Hl. destruct (lx_cat l) as [k'| |o|] eqn:Hc; try discriminate.
        destruct st as [m d]. destruct (st_rep_open _ _ _ _ _ Hr Hc) as (st1 & -> & Hr1).
        cbn [obind]. rewrite (nest_loop_blank w2) by exact W2. cbn [obind].
        rewrite nest_loop_app.
        destruct (IHn g) with (ls := lc) (st := st1) (f := @nil item) (fs := f :: fs)
          as (st2 & -> & Hr2); auto.
        { cbn in Hsz. unfold items_size. lia. }
        cbn [obind]. rewrite nest_loop_app. rewrite (nest_loop_blank w3) by exact W3. cbn [obind nest_loop].
        unfold tok_of in Hl'. destruct (lx_cat l') as [| | |o'] eqn:Hc2; try discriminate.
        destruct st2 as [m2 d2]. cbn [app] in Hr2.
        destruct (st_rep_close _ _ _ _ _ _ _ Hr2 Hg0 Hc2) as (st3 & -> & Hr3).
        cbn [obind]. exists st3. rewrite nest_loop_blank by exact W4. auto. }
    destruct Hfirst as (st1 & -> & Hr1). cbn [obind].
    apply IHn; auto.
    + pose proof (item_size_pos i). lia.
    + inversion Hne; auto.
Qed.

Lemma nest_complete ls is :
  well_bracketed (toks ls) is -> nest ls = Ok (build is).
Proof.
  intros (H1 & H2 & H3). unfold nest.
  destruct (nest_loop_complete (items_size is) is (le_n _) H2 ls ([], 0) [] [] H3 st_rep_init)
    as ([m d] & -> & Hl & Hm). cbn [obind app] in *.
  cbn in Hl. assert (d = 0) as -> by lia. cbn.
  rewrite (Hm 0). change (frame_at [is] 0) with is. now destruct is.
Qed.

Lemma nest_sound ls ns :
  nest ls = Ok ns -> exists is, well_bracketed (toks ls) is /\ ns = build is.
Proof.
  unfold nest. pose proof (nest_loop_sound ls ([], 0) [[]] st_rep_init) as H.
  destruct (nest_loop ([], 0) ls) as [[m d]| | |]; cbn [obind]; try discriminate.
  destruct H as (fs & (Hl & Hm) & [Hne Hok] & Hu).
  { split; [discriminate|]. repeat constructor. }
  destruct (Nat.eqb_spec d 0) as [->|]; [|discriminate]. cbn [negb].
  destruct fs as [|f [|g fs]]; try discriminate. cbn in Hu.
  rewrite (Hm 0). change (frame_at [f] 0) with f.
  destruct f as [|i f]; [discriminate|]. intros E; injection E as <-.
  exists (i :: f). split; [|reflexivity]. split; [discriminate|]. split; [|congruence].
  inversion Hok; auto.
Qed.

Lemma nest_errors ls :
  match nest ls with
  | Ok _ => True
  | Err e => e = EmptyParentheses \/ e = UnmatchedParentheses \/ e = EmptyExpression
  | _ => False
  end.
Proof.
  unfold nest. pose proof (nest_loop_sound ls ([], 0) [[]] st_rep_init) as H.
  destruct (nest_loop ([], 0) ls) as [[m d]| | |]; cbn [obind];
    try (destruct H; [split; [discriminate|]; repeat constructor|auto|auto]).
  - destruct (negb (Nat.eqb d 0)); auto. destruct (aget Nat.eqb 0 m); auto.
  - apply H. split; [discriminate|]; repeat constructor.
  - apply H. split; [discriminate|]; repeat constructor.
Qed.

Lemma nest_iff_lemma ls : (exists ns, nest ls = Ok ns) <-> (exists is, well_bracketed (toks ls) is).
Proof.
  split.
  - intros [ns H]. apply nest_sound in H as (is & H & _). eauto.
  - intros [is H]. exists (build is). now apply nest_complete.
Qed.

Lemma nest_empty_iff_lemma ls : nest ls = Err EmptyExpression <-> toks ls = [].
Proof.
  split.
  - unfold nest. pose proof (nest_loop_sound ls ([], 0) [[]] st_rep_init) as H.
    destruct (nest_loop ([], 0) ls) as [[m d]| | |]; cbn [obind].
    + destruct H as (fs & (Hl & Hm) & [Hne Hok] & Hu).
      { split; [discriminate|]. repeat constructor. }
      destruct (Nat.eqb_spec d 0) as [->|]; [|discriminate]. cbn [negb].
      destruct fs as [|f [|g fs]]; try discriminate. cbn in Hu.
      rewrite (Hm 0). change (frame_at [f] 0) with f.
      destruct f as [|i f]; [|discriminate]. intros _. symmetry. exact Hu.
    + destruct H as [-> | ->]; try discriminate. split; [discriminate|]. repeat constructor.
    + discriminate.
    + discriminate.
  - intros H. unfold nest. rewrite nest_loop_blank by exact H. reflexivity.
Qed.

(** ** White space *)
Lemma nest_loop_toks ls1 : forall ls2 st, toks ls1 = toks ls2 -> nest_loop st ls1 = nest_loop st ls2.
Proof.
  assert (Hstep : forall st l l', tok_of l = tok_of l' -> nest_step st l = nest_step st l').
  { intros [m d] l l' H. unfold tok_of in H. unfold nest_step.
    destruct (lx_cat l), (lx_cat l'); try discriminate; auto.
    injection H as -> ->. reflexivity. }
  induction ls1 as [|l ls1 IH]; intros ls2 st H.
  - cbn [nest_loop]. rewrite nest_loop_blank; auto.
  - rewrite toks_cons in H. destruct (tok_of l) as [|t [|u v]] eqn:E.
    + cbn [nest_loop]. assert (nest_step st l = Ok st) as ->.
      { unfold tok_of in E. destruct st. unfold nest_step. destruct (lx_cat l); try discriminate. reflexivity. }
      cbn. now apply IH.
    + cbn in H. change (t :: toks ls1) with ([t] ++ toks ls1) in H. symmetry in H.
      apply toks_split in H as (la & lb & -> & Ha & Hb).
      apply nest_loop_one in Ha as (w1 & l' & w2 & -> & W1 & Hl & W2).
      rewrite !nest_loop_app, (nest_loop_blank w1) by exact W1. cbn [obind nest_loop].
      rewrite (Hstep st l l') by congruence.
      destruct (nest_step st l'); cbn; auto.
      rewrite (nest_loop_blank w2) by exact W2. cbn. apply IH. auto.
    + exfalso. unfold tok_of in E. destruct (lx_cat l); discriminate.
Qed.

Lemma nest_whitespace_lemma ls1 ls2 : toks ls1 = toks ls2 -> nest ls1 = nest ls2.
Proof. intros H. unfold nest. now rewrite (nest_loop_toks ls1 ls2) by exact H. Qed.

(** ** Leaves and text *)
Lemma leaves_append n m : leaves (append_node n m) = leaves n ++ leaves m.
Proof.
  destruct n as [k s c|cs s]; cbn [append_node leaves flat_map].
  - now rewrite app_nil_r.
  - now rewrite flat_map_app; cbn; rewrite app_nil_r.
Qed.

Lemma leaves_fold ns : forall n,
  leaves (fold_left append_node ns n) = leaves n ++ flat_map leaves ns.
Proof.
  induction ns as [|m ns IH]; intros n; cbn [fold_left flat_map].
  - now rewrite app_nil_r.
  - rewrite IH, leaves_append, app_assoc. reflexivity.
Qed.

Lemma leaves_from_kind k t : leaves (from_concept_kind k t) = [sym_leaf k t].
Proof. destruct k as [id c| | |]; try reflexivity. destruct c; reflexivity. Qed.

Lemma sym_leaves_app a b : sym_leaves (a ++ b) = sym_leaves a ++ sym_leaves b.
Proof. apply flat_map_app. Qed.

Lemma leaves_build n : forall is, items_size is <= n -> leaves (build is) = sym_leaves (render is).
Proof.
  induction n as [|n IH]; intros is Hsz.
  - destruct is as [|i is]; [reflexivity|]. cbn in Hsz. pose proof (item_size_pos i); lia.
  - assert (Hitem : forall i, item_size i <= S n -> leaves (item_node i) = sym_leaves (render1 i)).
    { intros [k t|g] Hs.
      - cbn [item_node render1]. rewrite leaves_from_kind. reflexivity.
      - rewrite item_node_group. cbn [nest_node leaves flat_map]. rewrite app_nil_r, IH.
        + cbn [render1]. change (TOpen :: flat_map render1 g ++ [TClose]) with ([TOpen] ++ (render g ++ [TClose])).
          rewrite !sym_leaves_app. cbn. now rewrite app_nil_r.
        + cbn in Hs. unfold items_size. lia. }
    destruct is as [|i is]; [reflexivity|]. cbn [build].
    rewrite leaves_fold. cbn in Hsz. fold (items_size is) in Hsz.
    change (render (i :: is)) with (render1 i ++ render is). rewrite sym_leaves_app.
    f_equal; [apply Hitem; lia|].
    assert (Hsz' : items_size is <= S n) by lia. clear Hsz.
    induction is as [|j is IHis]; [reflexivity|]. cbn [map flat_map].
    change (render (j :: is)) with (render1 j ++ render is). rewrite sym_leaves_app.
    cbn in Hsz'. fold (items_size is) in Hsz'. f_equal; [apply Hitem; lia|apply IHis; lia].
Qed.

Lemma nest_leaves_lemma ls ns : nest ls = Ok ns -> leaves ns = sym_leaves (toks ls).
Proof.
  intros H. apply nest_sound in H as (is & (_ & _ & ->) & ->). eapply leaves_build. reflexivity.
Qed.

Lemma syntax_fold ns : forall n,
  ns_syntax (fold_left append_node ns n) = ns_syntax n ++ flat_map (fun x => c_space :: ns_syntax x) ns.
Proof.
  induction ns as [|m ns IH]; intros n; cbn [fold_left flat_map].
  - now rewrite app_nil_r.
  - rewrite IH. cbn. rewrite <- app_assoc. reflexivity.
Qed.

Lemma show_item_group g : show_item (Group g) = c_open :: show_items g ++ [c_close].
Proof. reflexivity. Qed.

Lemma syntax_item n : forall i, item_size i <= n -> ns_syntax (item_node i) = show_item i.
Proof.
  induction n as [|n IH]; intros i Hs; [pose proof (item_size_pos i); lia|].
  destruct i as [k t|g]; [reflexivity|].
  rewrite item_node_group, show_item_group. cbn [nest_node ns_syntax]. f_equal. f_equal.
  cbn in Hs. destruct g as [|i g]; [reflexivity|]. cbn [build show_items]. rewrite syntax_fold.
  cbn in Hs. fold (items_size g) in Hs. f_equal; [apply IH; lia|].
  assert (Hg : items_size g <= n) by lia. clear Hs.
  induction g as [|j g IHg]; [reflexivity|]. cbn [map flat_map]. cbn in Hg. fold (items_size g) in Hg.
  rewrite IH by lia. rewrite IHg by lia. reflexivity.
Qed.

Lemma syntax_build is : is <> [] -> ns_syntax (build is) = show_items is.
Proof.
  destruct is as [|i is]; [contradiction|]. intros _. cbn [build show_items].
  rewrite syntax_fold, (syntax_item (item_size i)) by lia. f_equal.
  induction is as [|j is IH]; [reflexivity|]. cbn [map flat_map].
  rewrite IH, (syntax_item (item_size j)) by lia. reflexivity.
Qed.

(** ** The grouping of what is built *)
Definition heads (n : nested) : list nested :=
  match n with NLeaf _ _ _ => [n] | NParent cs _ => cs end.
Lemma fold_heads ns : forall n, ns <> [] ->
  exists s, fold_left append_node ns n = NParent (heads n ++ ns) s.
Proof.
  induction ns as [|m ns IH]; intros n N; [contradiction|]. cbn [fold_left].
  destruct ns as [|m' ns].
  - exists (ns_syntax n ++ [c_space] ++ ns_syntax m). cbn [fold_left]. destruct n; reflexivity.
  - destruct (IH (append_node n m)) as [s E]; [discriminate|]. exists s. rewrite E. f_equal.
    destruct n; cbn [append_node heads app]; [reflexivity|]. rewrite <- app_assoc. reflexivity.
Qed.
Lemma grouping_from_kind k t : nested_grouping (from_concept_kind k t) = GSymbol (sym_leaf k t).
Proof. destruct k as [id c| | |]; try reflexivity. destruct c; reflexivity. Qed.
Lemma grouping_build n : forall is, is <> [] -> nonempty_groups is -> items_size is <= n ->
  nested_grouping (build is) = item_grouping (Group is).
Proof.
  induction n as [|n IH]; intros is N G Hsz.
  - destruct is as [|i is]; [contradiction|]. cbn in Hsz. pose proof (item_size_pos i); lia.
  - assert (Hitem : forall i, item_size i <= S n -> nonempty_groups [i] ->
              nested_grouping (item_node i) = item_grouping i /\
              map nested_grouping (heads (item_node i)) = [item_grouping i]).
    { intros [k t|g] Hs Hg.
      - cbn [item_node]. pose proof (grouping_from_kind k t) as E. split; [exact E|].
        unfold from_concept_kind in *. cbn [heads map]. rewrite E. reflexivity.
      - rewrite item_node_group. cbn [nest_node heads map nested_grouping].
        inversion Hg; subst. rewrite IH; [split; reflexivity|assumption..|].
        cbn in Hs. unfold items_size. lia. }
    destruct is as [|i is]; [contradiction|]. cbn in Hsz. fold (items_size is) in Hsz.
    assert (Gi : nonempty_groups [i] /\ nonempty_groups is).
    { inversion G; subst; split; try assumption; constructor; auto; constructor. }
    destruct Gi as [Gi Gs]. destruct (Hitem i) as [E1 E2]; [lia|exact Gi|].
    destruct is as [|j is]; [exact E1|]. cbn [build].
    destruct (fold_heads (map item_node (j :: is)) (item_node i)) as [s E]; [discriminate|].
    rewrite E. clear E.
    assert (Es : map nested_grouping (map item_node (j :: is)) = map item_grouping (j :: is)).
    { assert (Hs : items_size (j :: is) <= S n) by lia. clear - Hs Gs Hitem.
      induction (j :: is) as [|x l IHl]; [reflexivity|]. cbn [map]. cbn in Hs. fold (items_size l) in Hs.
      assert (Gi : nonempty_groups [x] /\ nonempty_groups l).
      { inversion Gs; subst; split; try assumption; constructor; auto; constructor. }
      destruct Gi as [Gx Gl]. f_equal; [apply Hitem; [lia|exact Gx]|apply IHl; [exact Gl|lia]]. }
    cbn [nested_grouping item_grouping].
    destruct (heads (item_node i)) as [|h [|h' hs]]; try discriminate E2.
    cbn [app]. change (map item_node (j :: is)) with (item_node j :: map item_node is) at 1.
    cbn [map] in E2, Es |- *. injection E2 as ->. f_equal. f_equal. exact Es.
Qed.
Lemma nest_structure_lemma ls ns :
  nest ls = Ok ns -> exists is, well_bracketed (toks ls) is /\
    nested_grouping ns = item_grouping (Group is) /\ ns_syntax ns = show_items is.
Proof.
  intros H. apply nest_sound in H as (is & W & ->). exists is. split; [exact W|].
  destruct W as (N & G & _). split; [|apply syntax_build; exact N].
  eapply grouping_build; [exact N|exact G|reflexivity].
Qed.

(** Brackets can be read in one way only. *)
Lemma render_inj n : forall is is' r r', items_size is <= n ->
  (r = [] \/ exists x, r = TClose :: x) -> (r' = [] \/ exists x, r' = TClose :: x) ->
  render is ++ r = render is' ++ r' -> is = is' /\ r = r'.
Proof.
  induction n as [|n IH]; intros is is' r r' Hsz Hr Hr' E.
  - destruct is as [|i is]; [|cbn in Hsz; pose proof (item_size_pos i); lia].
    destruct is' as [|[k t|g] is']; cbn in E; [split; [reflexivity|exact E]|..];
      destruct Hr as [->|[x ->]]; discriminate E.
  - destruct is as [|i is].
    + destruct is' as [|[k t|g] is']; cbn in E; [split; [reflexivity|exact E]|..];
        destruct Hr as [->|[x ->]]; discriminate E.
    + cbn in Hsz. fold (items_size is) in Hsz. pose proof (item_size_pos i).
      destruct is' as [|i' is'].
      { destruct i; cbn in E; destruct Hr' as [->|[x ->]]; discriminate E. }
      change (render (i :: is)) with (render1 i ++ render is) in E.
      change (render (i' :: is')) with (render1 i' ++ render is') in E.
      destruct i as [k t|g], i' as [k' t'|g']; cbn [render1 app] in E; try discriminate E.
      * injection E as <- <- E. assert (Hi : items_size is <= n) by lia.
        destruct (IH is is' r r' Hi Hr Hr' E) as [-> ->]. split; reflexivity.
      * injection E as E. change (flat_map render1 g) with (render g) in E.
        change (flat_map render1 g') with (render g') in E. rewrite <- !app_assoc in E.
        cbn in Hsz. change (fold_right _ 0 g) with (items_size g) in Hsz.
        destruct (IH g g' ([TClose] ++ render is ++ r) ([TClose] ++ render is' ++ r')) as [-> E'].
        -- lia.
        -- right. eexists. reflexivity.
        -- right. eexists. reflexivity.
        -- exact E.
        -- cbn [app] in E'. injection E' as E'.
           assert (Hi : items_size is <= n) by lia.
           destruct (IH is is' r r' Hi Hr Hr' E') as [-> ->]. split; reflexivity.
Qed.
Lemma well_bracketed_unique_lemma ts is is' :
  well_bracketed ts is -> well_bracketed ts is' -> is = is'.
Proof.
  intros (_ & _ & E) (_ & _ & E'). rewrite E in E'.
  destruct (render_inj (items_size is) is is' [] []) as [K _]; auto.
  rewrite !app_nil_r. exact E'.
Qed.
