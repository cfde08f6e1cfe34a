(** The words of a command as it is read: each is found under the concept of its leaf. *)
From Verif Require Import Lexer LexerFacts Nester NesterSpec NesterFacts Parser Context StoreSpec NameSpec MapFacts AstFacts StoreFacts StoreInv RangeFacts
  History Sim SimRead Steps Keep Links Meaning Names Frames StoreLaws Pending Quiet Grouping Keeping Naming.
From Coq Require Import List String Relations Permutation PeanoNat Lia.
Import ListNotations.
Local Open Scope zia_scope.

(** The leaves of a tree with the concepts they stand for. *)
Fixpoint tree_names (t : tree) : list (text * option cid) :=
  match t with
  | TLeaf s c _ => [(s, c)]
  | TBranch _ _ l r _ _ => tree_names l ++ tree_names r
  end.

Section Words.
  Variables (cfg : config) (snap : snapshot) (fuel : nat).
  Hypothesis F : fair cfg.
  Hypothesis S : sane snap.
  Hypothesis P : prev_unc snap = [].
  Hypothesis D : dbg cfg = true.
  Hypothesis HB : forall n, bimap_by_right CLabel (concrete_concepts snap) = Some n -> built_in snap n CLabel.
  Local Notation rho := (rho snap).
  Local Notation n0 := (size snap).
  Local Notation PU := (fun u : nat => I : below n0 (Uncommitted u)).
  Local Notation steps := (steps cfg (below n0) snap fuel).
  Local Notation amounts_to := (amounts_to cfg snap fuel).
  Local Notation cgood := (cgood (below n0) snap).

  (** The word [w] leads to [x] at this point. *)
  Definition here (c : ctx) (w : text) (x : cid) : Prop :=
    forall s, amounts_to (c_delta c) s -> found_under s w (rho x).
  Definition sound (c : ctx) : Prop := cgood c /\ steps delta_default (c_delta c).
  Definition keeps (c c' : ctx) : Prop := forall w x, here c w x -> here c' w x.
  Definition named (c : ctx) (t : tree) : Prop := forall w o, In (w, o) (tree_names t) -> exists x, o = Some x /\ here c w x.
  Definition lexed (c : ctx) (n : nested) : Prop := forall k w x, In (k, w, Some x) (leaves n) -> here c w x.
  Lemma keeps_unmoved c c' : unmoved c c' -> keeps c c'.
  Proof. intros [_ E] w x H s. rewrite E. apply H. Qed.
  Lemma keeps_trans a b c : keeps a b -> keeps b c -> keeps a c.
  Proof. intros H K w x I. apply K, H, I. Qed.
  Lemma named_keeps c c' t : keeps c c' -> named c t -> named c' t.
  Proof. intros K N w o I. destruct (N w o I) as (x & -> & H). exists x. split; [reflexivity|apply K, H]. Qed.
  Lemma lexed_keeps c c' n : keeps c c' -> lexed c n -> lexed c' n.
  Proof. intros K N k w x I. apply K, (N k w x I). Qed.

  (** Changes that only make things. *)
  Lemma keeps_making c c' : steps (c_delta c) (c_delta c') -> sound c ->
    (forall l, pending c' = pending c ++ l -> forall id x, In (id, x) l -> exists nd, x = DNew nd /\ forall w, nd <> NString w) ->
    keeps c c'.
  Proof.
    intros ST [_ S0] H w x Hw s' A'.
    destruct (found_stays cfg snap fuel S P _ _ ST S0 s' A') as (s1 & l & A1 & EO & K). apply (K w (rho x)).
    - intros id I. destruct (H l EO id _ I) as (nd & [= <-] & N). exact (N w eq_refl).
    - intros id y I. destruct (H l EO id y I) as (nd & E & _). eauto.
    - apply Hw, A1.
  Qed.

  (** The concept [label_of]. *)
  Lemma label_here c s v c' : sound c -> amounts_to (c_delta c) s -> c_concrete_id cfg CLabel c = Ok (Val v, c') ->
    c' = c /\ forall l, v = Some l -> below n0 l /\ built_in snap (rho l) CLabel.
  Proof.
    intros [(Sx & _) _] A E. unfold c_concrete_id in E. apply lift_back in E. destruct E as [-> E]. split; [reflexivity|].
    rewrite Sx in E. destruct (amounts_linked cfg snap fuel S P _ _ A) as (LK & _ & _ & T & SB).
    intros l ->. apply (linked_concrete_id _ _ _ _ _ _ _ F LK T SB) in E.
    destruct (bimap_by_right CLabel (concrete_concepts snap)) as [n|] eqn:B; [|discriminate]. injection E as ->.
    pose proof (HB n eq_refl) as B'. apply by_right_in in B. split; [apply (proj2 (proj2 (sane_ids snap S))) in B; exact B|exact B'].
  Qed.

  (** Making a name. *)
  Lemma labelling w l : logs (fun x => exists nd, x = DNew nd /\ forall v, nd = NString v -> v = w) (new_labelled_concept cfg w None l).
  Proof.
    unfold new_labelled_concept. apply logs_bind; [apply logs_still, still_lift|]. intros _.
    apply logs_bind; [apply logs_update; eexists; split; [reflexivity|congruence]|]. intros str.
    apply logs_bind; [apply logs_update; eexists; split; [reflexivity|discriminate]|]. intros comp.
    apply logs_update. eexists. split; [reflexivity|]. destruct l; discriminate.
  Qed.

  (** A leaf. *)
  Lemma leaf_names k w o c u c' :
    sound c -> match o with Some x => below n0 x | None => True end -> (forall x, o = Some x -> here c w x) ->
    ast_from_syntax_leaf cfg fuel k w o c = Ok (Val u, c') -> keeps c c' /\ named c' u.
  Proof.
    intros SD G Ho E. unfold ast_from_syntax_leaf in E. apply bind_back in E.
    destruct E as ([x|x] & c1 & E1 & E); [|destruct E as [E _]; discriminate E]. injection E as <- <-.
    assert (K : keeps c c1 /\ here c1 w x).
    2:{ destruct K as [K1 K2]. split; [exact K1|]. intros w' o' [[= <- <-]|[]]. eauto. }
    destruct o as [id|].
    { injection E1 as <- <-. split; [intros a b H; exact H|apply Ho; reflexivity]. }
    apply bind_back in E1. destruct E1 as ([[]|e] & c2 & E2 & E1); [|destruct E1 as [E1 _]; discriminate E1].
    assert (c2 = c) as ->. { unfold need_delta in E2. destruct (pinned c); [discriminate|]. injection E2 as <-. reflexivity. }
    apply bind_back in E1. destruct E1 as ([l|e] & c2 & E3 & E1); [|destruct E1 as [E1 _]; discriminate E1].
    apply lift_back in E3. destruct E3 as [-> E3]. pose proof SD as [CG S0]. pose proof CG as (Sx & _). cbn beta in E3.
    assert (LOOK : forall s, amounts_to (c_delta c) s -> match l with Some y => found_under s w (rho y) | None => forall y, ~ found_under s w y end).
    { intros s A. pose proof (amounts_linked cfg snap fuel S P _ _ A) as (LK & _). 
      rewrite Sx in E3. destruct l as [y|].
      - apply (pending_label_found cfg snap false (c_delta c) s s F LK eq_refl (strings_here cfg snap fuel F S P _ _ A) fuel w y E3).
      - apply (pending_label_none cfg snap false (c_delta c) s s F LK eq_refl (strings_here cfg snap fuel F S P _ _ A) fuel w E3). }
    destruct l as [y|].
    { injection E1 as <- <-. split; [intros a b H; exact H|exact LOOK]. }
    apply bind_back in E1. destruct E1 as ([l|e] & c2 & E4 & E1); [|destruct E1 as [E1 _]; discriminate E1].
    pose proof (cok_concrete_id cfg F (below n0) snap (sane_ids _ S) fuel CLabel c _ c2 CG E4) as (_ & _ & Gl).
    pose proof (cok_new_labelled cfg (below n0) PU snap fuel w l Gl) as CK.
    assert (c2 = c) as -> by (unfold c_concrete_id in E4; apply lift_back in E4; apply E4).
    destruct (CK c _ c1 CG E1) as (_ & ST & _).
    destruct (labelling w l c _ c1 E1) as (_ & new & EO & NW). rewrite Forall_forall in NW.
    split.
    - intros w' x' Hw s' A'. destruct (found_stays cfg snap fuel S P _ _ ST S0 s' A') as (s1 & l' & A1 & EO' & K).
      unfold pending in EO. rewrite EO' in EO. apply app_inv_head in EO. subst l'.
      destruct (list_eq_dec N.eq_dec w' w) as [->|NE].
      { exfalso. exact (LOOK s1 A1 _ (Hw s1 A1)). }
      apply K.
      + intros id I. apply NW in I. destruct I as (nd & [= <-] & Q). apply NE, Q. reflexivity.
      + intros id y I. apply NW in I. destruct I as (nd & Q & _). eauto.
      + apply Hw, A1.
    - intros s' A'. destruct (found_stays cfg snap fuel S P _ _ ST S0 s' A') as (s1 & _ & A1 & _).
      destruct (label_here c s1 _ c SD A1 E4) as [_ LB]. destruct l as [l|].
      + destruct (LB l eq_refl) as [Bl BL]. exact (labelled_found cfg snap fuel S P w l c x c1 s' CG S0 E1 A' BL Bl).
      + unfold new_labelled_concept in E1. rewrite D in E1. apply bind_back in E1. destruct E1 as (y & c3 & E1 & _).
        unfold clift in E1. discriminate E1.
  Qed.

  (** Trees built from named trees. *)
  Local Notation combined := (combine_exp cfg fuel D).
  Lemma names_exp t l r : t_exp t = Some (l, r) -> tree_names t = tree_names l ++ tree_names r.
  Proof. destruct t; [discriminate|]. intros [= <- <-]. reflexivity. Qed.
  Lemma built_names ts u : built_from ts u -> tree_names u = flat_map tree_names ts.
  Proof.
    intros B. induction B as [t|a b l r u B1 IH1 B2 IH2 E]; cbn; [now rewrite app_nil_r|].
    rewrite (names_exp _ _ _ E), IH1, IH2, flat_map_app. reflexivity.
  Qed.
  Lemma names_part ts ts' w o : part_of ts ts' -> In (w, o) (flat_map tree_names ts) -> In (w, o) (flat_map tree_names ts').
  Proof.
    intros H I. apply in_flat_map in I. destruct I as (t & T & I). apply in_flat_map. exists t. split; [|exact I].
    exact (part_in _ _ _ H T).
  Qed.
  Definition all_named (c : ctx) (ts : list tree) : Prop := forall w o, In (w, o) (flat_map tree_names ts) -> exists x, o = Some x /\ here c w x.
  Lemma all_named_keeps c c' ts : keeps c c' -> all_named c ts -> all_named c' ts.
  Proof. intros K N w o I. destruct (N w o I) as (x & -> & H). exists x. split; [reflexivity|apply K, H]. Qed.
  Lemma all_named_cons c t ts : named c t -> all_named c ts -> all_named c (t :: ts).
  Proof. intros H K w o I. cbn in I. apply in_app_iff in I. destruct I as [I|I]; [apply H, I|apply K, I]. Qed.
  Lemma list_names ts c u c' : all_named c ts -> parse_list cfg fuel ts c = Ok (Val u, c') -> keeps c c' /\ named c' u.
  Proof.
    intros N E. apply (list_keeps cfg fuel F combined) in E. destruct E as (es & E1 & E2 & k & Pk & B & _).
    assert (K : keeps c c'). { apply keeps_unmoved. eapply about_unmoved; eassumption. }
    split; [exact K|]. intros w o I. rewrite (built_names _ _ B) in I. apply (names_part _ _ _ _ Pk) in I.
    destruct (N w o I) as (x & -> & H). exists x. split; [reflexivity|apply K, H].
  Qed.
  Lemma pair_names l r c u c' : all_named c [l; r] -> ast_from_pair cfg fuel l r c = Ok (Val u, c') -> keeps c c' /\ named c' u.
  Proof.
    intros N E. unfold ast_from_pair in E. apply bind_back in E. destruct E as ([ty|x] & c1 & E1 & E); [|destruct E as [E _]; discriminate E].
    apply (unmoving_type cfg) in E1. apply bind_back in E. destruct E as ([y|x] & c2 & E2 & E); [|destruct E as [E _]; discriminate E].
    assert (U : unmoved c1 c2).
    { destruct (_ && _)%bool; injection E2 as _ <-; split; reflexivity. }
    assert (K : keeps c c').
    { apply keeps_unmoved. eapply unmoved_trans; [exact E1|]. eapply unmoved_trans; [exact U|]. eapply unmoving_combine, E. }
    split; [exact K|]. apply combined in E. intros w o I. rewrite (names_exp _ _ _ E) in I.
    destruct (N w o) as (x & -> & H); [cbn; rewrite app_nil_r; exact I|]. exists x. split; [reflexivity|apply K, H].
  Qed.
  Definition nested_names (n : nested) : Prop := forall c u c', sound c -> okn (below n0) n -> lexed c n ->
    ast_from_nested_syntax cfg fuel n c = Ok (Val u, c') -> sound c' /\ keeps c c' /\ named c' u.
  Lemma all_names ns : Forall nested_names ns -> forall c ts c', sound c -> (forall n, In n ns -> okn (below n0) n) ->
    (forall n, In n ns -> lexed c n) -> read_all cfg fuel ns c = Ok (Val ts, c') -> sound c' /\ keeps c c' /\ all_named c' ts.
  Proof.
    intros H. induction H as [|n ns H K IH]; intros c ts c' SD G L E; cbn in E.
    - injection E as <- <-. split; [exact SD|]. split; [intros w x I; exact I|intros w o []].
    - apply bind_back in E. destruct E as ([t|x] & c1 & E1 & E); [|destruct E as [E _]; discriminate E].
      apply bind_back in E. destruct E as ([ts'|x] & c2 & E2 & E); [|destruct E as [E _]; discriminate E].
      injection E as <- <-. destruct (H c t c1 SD (G n (or_introl eq_refl)) (L n (or_introl eq_refl)) E1) as (S1 & K1 & N1).
      destruct (IH c1 ts' c2 S1 (fun m I => G m (or_intror I)) (fun m I => lexed_keeps _ _ _ K1 (L m (or_intror I))) E2) as (S2 & K2 & N2).
      split; [exact S2|]. split; [eapply keeps_trans; eassumption|]. apply all_named_cons; [eapply named_keeps; eassumption|exact N2].
  Qed.
  Lemma sound_cok {A} {G : Good A} (m : CM A) c r c' : cok cfg (below n0) snap fuel m -> sound c -> m c = Ok (r, c') -> sound c'.
  Proof.
    intros CK [CG S0] E. destruct (CK c r c' CG E) as (CG' & ST & _).
    split; [exact CG'|]. eapply steps_trans; eassumption.
  Qed.
  Lemma nested_sound n c r c' : sound c -> okn (below n0) n -> ast_from_nested_syntax cfg fuel n c = Ok (r, c') -> sound c'.
  Proof. intros SD G E. exact (sound_cok _ _ _ _ (cok_nested cfg F (below n0) PU snap (sane_ids _ S) fuel n G) SD E). Qed.
  Lemma lexed_child c ns sh n : lexed c (NParent ns sh) -> In n ns -> lexed c n.
  Proof. intros L I k w x J. apply (L k). cbn. apply in_flat_map. eauto. Qed.
  Lemma okn_child ns sh n : okn (below n0) (NParent ns sh) -> In n ns -> okn (below n0) n.
  Proof. intros G. apply okn_parent in G. apply G. Qed.
  Lemma read_nested : forall n, nested_names n.
  Proof.
    fix go 1. intros [k s o|ns sh].
    - intros c u c' SD G L E. split; [exact (nested_sound _ _ _ _ SD G E)|].
      cbn [ast_from_nested_syntax] in E. apply (leaf_names k s o c u c' SD).
      + destruct o; exact G.
      + intros x ->. apply (L k). left. reflexivity.
      + exact E.
    - assert (A : Forall nested_names ns).
      { induction ns as [|n ns IH]; constructor; [apply go|exact IH]. }
      clear go. intros c u c' SD G L E. split; [exact (nested_sound _ _ _ _ SD G E)|].
      cbn [ast_from_nested_syntax] in E. apply bind_back in E. destruct E as ([ts|x] & c1 & E1 & E); [|destruct E as [E _]; discriminate E].
      destruct (all_names ns A c ts c1 SD (fun n => okn_child ns sh n G) (fun n => lexed_child c ns sh n L) E1) as (S1 & K1 & N1).
      assert (X : keeps c1 c' /\ named c' u).
      { destruct ts as [|l [|r [|x ts]]]; try (eapply list_names; eassumption). eapply pair_names; eassumption. }
      split; [eapply keeps_trans; [exact K1|apply X]|apply X].
  Qed.

  (** A command. *)
  Lemma expression_names s c u c' :
    sound c -> c_delta c = delta_default ->
    ast_from_expression cfg fuel s c = Ok (Val u, c') -> sound c' /\ named c' u.
  Proof.
    intros SD Ed E. split; [exact (sound_cok _ _ _ _ (cok_expression cfg F (below n0) PU snap (sane_ids _ S) fuel s) SD E)|].
    unfold ast_from_expression, c_lex, c_nest in E.
    apply bind_back in E. destruct E as ([ls|x] & c1 & E1 & E); [|destruct E as [E _]; discriminate E].
    apply lift_back in E1. destruct E1 as [-> E1].
    apply bind_back in E. destruct E as ([n|x] & c1 & E2 & E); [|destruct E as [E _]; discriminate E].
    apply lift_back in E2. destruct E2 as [-> E2].
    pose proof (ok_nest (below n0) ls (ok_lex (below n0) _ s (fun t => ok_kind cfg F (below n0) snap (sane_ids _ S) fuel c t (proj1 SD)) ls E1) n E2) as GN.
    assert (L : lexed c n).
    { intros k w x I. rewrite (nest_leaves_lemma _ _ E2) in I. unfold sym_leaves in I. apply in_flat_map in I.
      destruct I as (tk & T & I). unfold toks in T. apply in_flat_map in T. destruct T as (l & L1 & T).
      unfold tok_of in T. destruct (lx_cat l) as [kd| | |] eqn:C; [|destruct T|destruct T as [<-|[]]; destruct I|destruct T as [<-|[]]; destruct I].
      destruct T as [<-|[]]. destruct I as [I|[]]. pose proof (lex_categories_lemma _ _ _ _ _ E1 L1 C) as K.
      apply (kind_truthful cfg snap F fuel c _ _ (proj1 (proj1 SD)) Ed) in K.
      intros s' [_ A]. rewrite Ed in A. injection A as <-.
      destruct kd as [id ct|id| |]; cbn in K, I; [| |discriminate I|discriminate I].
      - destruct K as (_ & y & -> & FU & _). destruct ct; injection I as _ <- <-; exact FU.
      - destruct K as (_ & y & -> & FU & _). injection I as _ <- <-. exact FU. }
    apply bind_back in E. destruct E as ([ts|x] & c1 & E3 & E); [|destruct E as [E _]; discriminate E].
    assert (X : all_named c1 ts).
    { destruct n as [k w o|ns sh]; cbn [syntax_list_for_nested_syntax] in E3.
      - apply bind_back in E3. destruct E3 as ([t|x] & c2 & E3 & E4); [|destruct E4 as [E4 _]; discriminate E4].
        injection E4 as <- <-. apply all_named_cons; [|intros v q []].
        apply (read_nested (NLeaf k w o) c t c2 SD GN L E3).
      - apply (all_names ns (proj2 (Forall_forall _ _) (fun m _ => read_nested m)) c ts c1 SD (fun n => okn_child ns sh n GN) (fun n => lexed_child c ns sh n L) E3). }
    exact (proj2 (list_names ts c1 u c' X E)).
  Qed.
End Words.
