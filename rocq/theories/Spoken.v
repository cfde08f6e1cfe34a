(** Commands of words alone: what is declared and defined between the words. *)
From Verif Require Import Parser Context StoreSpec NameSpec FrameSpec MapFacts AstFacts StoreFacts StoreInv RangeFacts
  History Sim SimRead Steps Keep Links Meaning Names Frames StoreLaws Pending Quiet Reductions Declare Define Expressions
  SearchCaches Existence Earned CacheRun StoreLaws Grouping Keeping Naming Words Said OwnTrees Follow Settled.
From Coq Require Import List String Relations Permutation PeanoNat Lia.
Import ListNotations.
Local Open Scope zia_scope.

(** What the word stands for, if it stands for something, has no parts and is no free variable. *)
Definition simple_word (s : snapshot) (w : text) : Prop := forall n, found_under s w n -> elementary s n.

(** [t] has the shape of [u] as far as the parts of [u] have no concept, and where [u] has a
    simple word, [t] has a leaf for what it stands for. *)
Fixpoint spoken (s : snapshot) (u t : tree) : Prop :=
  match u with
  | TLeaf w (Some x) _ => simple_word s w -> exists v o k, t = TLeaf v o k /\ (k <> LVariable -> o = Some x)
  | TBranch _ None l r _ _ => exists l' r', t_exp t = Some (l', r') /\ spoken s l l' /\ spoken s r r'
  | _ => True
  end.

(** A pair that no concept was found for, and a word. *)
Definition pair_of (u l r : tree) : Prop := t_concept u = None /\ t_exp u = Some (l, r).
Definition is_word (t : tree) (w : text) : Prop := exists o k, t = TLeaf w o k.
(** The nesting of `let (w1 (f w2))`. *)
Definition nested_words (u : tree) (w1 w2 : text) : Prop :=
  exists ul ut t1 up uf t2, pair_of u ul ut /\ pair_of ut t1 up /\ pair_of up uf t2 /\ is_word t1 w1 /\ is_word t2 w2.
(** The nesting of `let (w1 (f (w2 w3)))`. *)
Definition nested_three (u : tree) (w1 w2 w3 : text) : Prop :=
  exists ul ut t1 up uf uq t2 t3, pair_of u ul ut /\ pair_of ut t1 up /\ pair_of up uf uq /\ pair_of uq t2 t3 /\
    is_word t1 w1 /\ is_word t2 w2 /\ is_word t3 w3.
Lemma spoken_pair s u l r t : pair_of u l r -> spoken s u t -> exists l' r', t_exp t = Some (l', r') /\ spoken s l l' /\ spoken s r r'.
Proof. destruct u as [|v [x|] a b fv bv]; intros [H1 H2]; try discriminate. injection H2 as -> ->. auto. Qed.
Lemma names_pair u l r : pair_of u l r -> tree_names u = tree_names l ++ tree_names r.
Proof. intros [_ E]. destruct u; [discriminate|]. injection E as -> ->. reflexivity. Qed.
Lemma spoken_word s o k w x t : simple_word s w -> o = Some x -> is_leaf_variable t = false ->
  spoken s (TLeaf w o k) t -> t_concept t = Some x /\ t_exp t = None.
Proof.
  intros SW -> V H. destruct (H SW) as (v & o & kd & -> & K). cbn. split; [|reflexivity]. apply K. intros ->. discriminate V.
Qed.

Section Spoken.
  Variables (cfg : config) (fuel : nat).
  Hypothesis F : fair cfg.
  Hypothesis D : dbg cfg = true.

  Lemma created_leaf v o k c t c' : create_variable_concepts (TLeaf v o k) c = Ok (Val t, c') ->
    exists o', t = TLeaf v o' k /\ (k <> LVariable -> o' = o).
  Proof.
    cbn [create_variable_concepts]. intros E. destruct k; try (injection E as <- <-; eauto; fail).
    destruct (aget text_eqb v (c_vars c)).
    - injection E as <- <-. eexists. split; [reflexivity|congruence].
    - apply bind_back in E. destruct E as ([[]|e] & c1 & _ & E); [|destruct E; discriminate].
      apply bind_back in E. destruct E as ([id|e] & c2 & _ & E); [|destruct E; discriminate].
      injection E as <- <-. eexists. split; [reflexivity|congruence].
  Qed.
  Lemma created_exp t2 l2 r2 c t c' : create_variable_concepts t2 c = Ok (Val t, c') -> t_exp t2 = Some (l2, r2) ->
    exists l r c1, t_exp t = Some (l, r) /\ create_variable_concepts l2 c = Ok (Val l, c1) /\ create_variable_concepts r2 c1 = Ok (Val r, c').
  Proof.
    destruct t2 as [|v o l r fv bv]; [discriminate|]. intros E [= -> ->]. cbn [create_variable_concepts] in E.
    apply bind_back in E. destruct E as ([l|e] & c1 & E1 & E); [|destruct E; discriminate].
    apply bind_back in E. destruct E as ([r|e] & c2 & E2 & E); [|destruct E; discriminate].
    injection E as <- <-. exists l, r, c1. auto.
  Qed.

  Section Command.
    Variables (c : ctx).
    Hypothesis R : reachable true c.
    Local Notation snap := (c_snap c).
    Local Notation n0 := (size snap).
    Local Notation amounts_to := (amounts_to cfg snap fuel).
    Let RD := reachable_ready _ _ R.
    Let S := ready_sane c RD.
    Let P := ready_prev c RD.

    Lemma word_elementary d s w x : amounts_to d s -> Forall (fun p => naming (snd p)) (d_order (overlay d)) ->
      found_under s w x -> simple_word snap w -> elementary s x.
    Proof.
      intros AM NM FU SW. destruct (Nat.lt_ge_cases x n0) as [L|L].
      - destruct (old_word cfg snap fuel S P d s x AM NM L) as (_ & _ & H & _). apply H, SW.
        exact (older_name cfg snap fuel S P d s w x AM NM FU L).
      - destruct (new_word cfg snap fuel S P d s w x AM NM FU L) as (H & _). unfold elementary. rewrite H. split; [|discriminate].
        unfold char_at in H. unfold comp_at. destruct (lookup s x) as [k|]; [|reflexivity]. unfold get_composition. destruct (c_spec k) as [|[] ?|]; congruence.
    Qed.
    Lemma word_unlisted d s w x : amounts_to d s -> Forall (fun p => naming (snd p)) (d_order (overlay d)) ->
      found_under s w x -> (forall n y, found_under snap w n -> ~ lists_reduction_from snap y n) -> forall y, ~ lists_reduction_from s y x.
    Proof.
      intros AM NM FU SW y J. apply from_at_spec in J. destruct (Nat.lt_ge_cases x n0) as [L|L].
      - destruct (old_word cfg snap fuel S P d s x AM NM L) as (_ & _ & _ & H).
        apply (SW x y (older_name cfg snap fuel S P d s w x AM NM FU L)). apply from_at_spec, H, J.
      - destruct (new_word cfg snap fuel S P d s w x AM NM FU L) as (_ & _ & H). exact (H y J).
    Qed.
    Lemma word_unreduced d s w x : amounts_to d s -> Forall (fun p => naming (snd p)) (d_order (overlay d)) ->
      found_under s w x -> (forall n y, found_under snap w n -> ~ lists_reduction_from snap y n) -> red_at s x = None.
    Proof.
      intros AM NM FU SW. destruct (Nat.lt_ge_cases x n0) as [L|L].
      - destruct (old_word cfg snap fuel S P d s x AM NM L) as (_ & H & _). rewrite H.
        destruct (red_at snap x) as [y|] eqn:E; [|reflexivity]. exfalso. apply reduces_at in E.
        apply (SW x y (older_name cfg snap fuel S P d s w x AM NM FU L)).
        exact (reachable_listed true c R x y E).
      - apply (new_word cfg snap fuel S P d s w x AM NM FU L).
    Qed.
    Lemma spoken_from c0 s0 : amounts_to (c_delta c0) s0 -> Forall (fun p => naming (snd p)) (pending c0) ->
      forall u t2 c3 t c1, named cfg snap fuel c0 u -> follows cfg snap (c_delta c0) u t2 ->
      create_variable_concepts t2 c3 = Ok (Val t, c1) -> spoken snap u t.
    Proof.
      intros AM NM. induction u as [w [x|] k|w [x|] l IHl r IHr fv bv]; intros t2 c3 t c1 N FO E; try exact I.
      - intros SW. destruct (N w (Some x) (or_introl eq_refl)) as (x' & [= <-] & H). specialize (H _ AM).
        destruct FO as (v & kd & ->).
        { intros m RM. apply (plain_there _ _ _ s0 _ m (proj1 (amounts_linked cfg snap fuel S P _ _ AM)) RM).
          exact (word_elementary _ _ _ _ AM NM H SW). }
        destruct (created_leaf _ _ _ _ _ _ E) as (o' & -> & K). eauto.
      - destruct FO as (l2 & r2 & X & Fl & Fr). destruct (created_exp _ _ _ _ _ _ E X) as (l' & r' & c4 & X' & El & Er).
        exists l', r'. split; [exact X'|]. split.
        + apply (IHl l2 c3 l' c4); auto. intros v o J. apply N. cbn. apply in_or_app. auto.
        + apply (IHr r2 c4 r' c1); auto. intros v o J. apply N. cbn. apply in_or_app. auto.
    Qed.
    Lemma read_spoken command u c0 t c1 s1 : ast_from_expression cfg fuel command c = Ok (Val u, c0) ->
      read_tree cfg fuel command c = Ok (Val t, c1) -> amounts_to (c_delta c1) s1 -> spoken snap u t.
    Proof.
      intros E0 Rt AM. pose proof (start_sound cfg fuel c R) as SD.
      destruct (expression_names cfg snap fuel F S P D (label_built_in c R) command c u c0 SD (ready_delta c RD) E0) as [SD0 N0].
      pose proof (sane_numbers _ S) as SN.
      destruct (ck_expression _ _ _ _ _ _ _ _ _ (own_run_laws cfg fuel snap SN) command c _ c0
        (conj eq_refl (own_start cfg c (ready_delta c RD) (reachable_own _ _ R))) E0) as [[Es0 OC] _].
      unfold read_tree in Rt. apply bind_back in Rt. destruct Rt as (y & cc & E2 & Rt).
      rewrite E0 in E2. injection E2 as <- <-.
      apply bind_back in Rt. destruct Rt as ([t2|e] & c3 & E3 & Rt); [|destruct Rt; discriminate].
      apply obind_ok in Rt. destruct Rt as ([[y|] c4] & E4 & Rt); [|discriminate]. injection Rt as -> ->.
      assert (SN0 : self_numbered (c_snap c0)) by (rewrite Es0; exact SN).
      pose proof (c_expand_follows cfg fuel u c0 t2 c3 D SN0 OC E3) as FO. rewrite Es0 in FO.
      destruct (unmoving_search (fun c e => o_expand (ops_of cfg fuel c) e u) _ _ _ E3) as [_ E3d].
      destruct (logs_variables t2 c3 _ c1 E4) as (_ & l & El & _).
      destruct AM as [_ A]. change (d_order (overlay (c_delta c1))) with (pending c1) in A. rewrite El, apply_directs_app in A.
      apply obind_ok in A. destruct A as (s0 & A0 & _). unfold pending in A0. rewrite E3d in A0.
      apply (spoken_from c0 s0 (conj (proj2 SD0) A0)) with (t2 := t2) (c3 := c3) (c1 := c1); auto.
      destruct (logs_expression cfg fuel command c _ c0 E0) as (_ & l0 & El0 & Hl0).
      unfold pending in El0 at 2. rewrite (ready_delta c RD) in El0. cbn in El0. rewrite El0. exact Hl0.
    Qed.

    (** One change more. *)
    Lemma steps_nothing d d' : steps cfg (below n0) snap fuel d d' -> layers d = [overlay d] ->
      d_order (overlay d') = d_order (overlay d) -> d' = d.
    Proof.
      intros ST L E. destruct ST as [d|d d1 x id d2 ST LG G U]; [reflexivity|]. exfalso.
      destruct (steps_order cfg fuel _ _ _ _ ST L) as [l El].
      destruct (update_order _ _ _ _ (steps_single _ _ _ _ _ _ ST L) U) as [EO _].
      rewrite EO, El, <- app_assoc in E. apply (f_equal (@List.length _)) in E. rewrite !app_length in E. cbn in E. lia.
    Qed.
    Lemma steps_one d d' k y : steps cfg (below n0) snap fuel d d' -> layers d = [overlay d] ->
      d_order (overlay d') = d_order (overlay d) ++ [(k, y)] ->
      legit cfg snap fuel d y /\ good_direct (below n0) y /\ delta_update y d = Ok (k, d').
    Proof.
      intros ST L E. destruct ST as [d|d d1 x id d2 ST LG G U].
      - exfalso. apply (f_equal (@List.length _)) in E. rewrite app_length in E. cbn in E. lia.
      - destruct (steps_order cfg fuel _ _ _ _ ST L) as [l El].
        destruct (update_order _ _ _ _ (steps_single _ _ _ _ _ _ ST L) U) as [EO _]. rewrite EO in E.
        apply app_inj_tail in E. destruct E as [E1 [= -> ->]].
        pose proof (steps_nothing _ _ ST L E1) as ->. auto.
    Qed.
    Lemma one_more d1 d2 s2 k y : steps cfg (below n0) snap fuel delta_default d1 -> steps cfg (below n0) snap fuel d1 d2 ->
      d_order (overlay d2) = d_order (overlay d1) ++ [(k, y)] -> (forall w, y <> DNew (NString w)) -> amounts_to d2 s2 ->
      exists s1, amounts_to d1 s1 /\
        (harmless snap s1 y -> forall w x, found_under s1 w x -> found_under s2 w x).
    Proof.
      intros S1 ST EO NS AM. pose proof (steps_single _ _ _ _ _ _ S1 eq_refl) as L.
      destruct (steps_one d1 d2 k y ST L EO) as (LG & G & U).
      destruct (amounts_step cfg snap fuel d1 y k d2 s2 S1 U AM) as (s1 & A1 & AD).
      exists s1. split; [exact A1|]. intros HL w x. apply (harmless_step cfg snap fuel S P d1 y k d2 s1 s2 w x S1 LG G U A1 AD HL (NS w)).
    Qed.

    Lemma place_of x : place snap x = rho snap x.
    Proof. apply place_rho. Qed.
    Lemma unerring t : t = [] -> forall e, t <> error_text e.
    Proof. intros -> e H. exact (error_not_empty e (eq_sym H)). Qed.

    Theorem spoken_declaration command c' u c0 a b w1 w2 :
      ast_from_expression cfg fuel command c = Ok (Val u, c0) -> nested_words u w1 w2 ->
      reads_as_reduction cfg fuel c command a b -> is_leaf_variable a = false -> is_leaf_variable b = false ->
      simple_word snap w1 -> simple_word snap w2 ->
      (forall n y, found_under snap w1 n -> ~ lists_reduction_from snap y n) ->
      execute cfg fuel command c = Ok ([], c') ->
      exists x y, found_under (c_snap c') w1 x /\ found_under (c_snap c') w2 y /\ reduces (c_snap c') x y /\
        (lt x n0 -> found_under snap w1 x) /\ (lt y n0 -> found_under snap w2 y) /\ only_reduction_of x snap (c_snap c').
    Proof.
      intros E0 (ul & ut & t1 & up & uf & t2 & P1 & P2 & P3 & (o1 & k1 & ->) & (o2 & k2 & ->)) RR V1 V2 SW1 SW2 UL E.
      pose proof RR as (t & c1 & tl & ta & p & ar & nl & na & RT & T1 & T2 & T3 & T4 & T5 & B1 & T6 & B2).
      destruct (command_words cfg fuel F D command c [] c' u c0 R E0 E (unerring [] eq_refl))
        as (t' & c1' & c2 & s2 & Rt & Ec & SD1 & N1 & SD2 & ST2 & AM2 & X1 & X2).
      rewrite RT in Rt. injection Rt as <- <-.
      destruct (command_run cfg fuel _ _ _ _ _ _ F RD E RT)
        as (z & c2' & s1' & s2' & EC & EA & ES1 & ES2 & EX & LK1 & EX1 & _ & ST & LK2 & A2 & CC & FR & OT).
      rewrite Ec in EC. injection EC as <- <-.
      assert (In1 : In (w1, o1) (tree_names u)).
      { rewrite (names_pair _ _ _ P1), (names_pair _ _ _ P2). apply in_or_app. right. left. reflexivity. }
      assert (In2 : In (w2, o2) (tree_names u)).
      { rewrite (names_pair _ _ _ P1), (names_pair _ _ _ P2), (names_pair _ _ _ P3). apply in_or_app. right.
        apply in_or_app. right. apply in_or_app. right. left. reflexivity. }
      destruct (N1 _ _ In1) as (x1 & Eo1 & H1). destruct (N1 _ _ In2) as (x2 & Eo2 & H2).
      pose proof (read_names cfg fuel _ _ _ _ RD RT) as NM.
      destruct (found_stays cfg snap fuel S P _ _ ST2 (proj2 SD1) s2 AM2) as (s1 & l & AM1 & _).
      assert (CA : t_concept a = Some x1 /\ t_concept b = Some x2).
      { pose proof (read_spoken command u c0 t c1 s1 E0 RT AM1) as SP.
        destruct (spoken_pair _ _ _ _ _ P1 SP) as (l' & r' & Q1 & _ & SP2). rewrite T2 in Q1. injection Q1 as <- <-.
        destruct (spoken_pair _ _ _ _ _ P2 SP2) as (l' & r' & Q2 & Sa & SP3). rewrite T3 in Q2. injection Q2 as <- <-.
        destruct (spoken_pair _ _ _ _ _ P3 SP3) as (l' & r' & Q3 & _ & Sb). rewrite T4 in Q3. injection Q3 as <- <-.
        split; [exact (proj1 (spoken_word _ _ _ _ _ _ SW1 Eo1 V1 Sa))|exact (proj1 (spoken_word _ _ _ _ _ _ SW2 Eo2 V2 Sb))]. }
      destruct CA as [Ca Cb]. pose proof (H1 _ AM1) as F1. pose proof (H2 _ AM1) as F2.
      assert (K : t_key a <> t_key b).
      { intros K. destruct (call_declares cfg fuel t tl ta a p ar b _ _ c1 _ c2 T1 T2 T3 T4 T5 T6
          (built_in_type cfg c1 s1' _ _ _ ES1 LK1 EX1 B1) (built_in_type cfg c1 s1' _ _ _ ES1 LK1 EX1 B2) Ec)
          as [(e & [=] & _)|(DD & _)].
        unfold execute_reduction in DD. destruct (t_contains b a); [discriminate|].
        destruct (key_eqb_spec (t_key a) (t_key b)) as [_|]; [|contradiction].
        destruct (removing_changes cfg a c1 _ c2 DD) as (x & y & m & _ & Cx & RM & MR). rewrite Ca in Cx. injection Cx as <-.
        rewrite ES1 in RM. destruct (linked_read _ _ _ _ _ _ _ (proj1 (amounts_linked cfg snap fuel S P _ _ AM1)) RM) as (_ & kk & L & SM).
        pose proof (word_unreduced _ _ _ _ AM1 NM F1 UL) as RU. unfold red_at in RU. rewrite L in RU.
        pose proof (sim_red _ _ _ _ _ SM) as SR. rewrite MR in SR. pose proof (sim_spec _ _ _ _ _ SM) as SQ. cbn in SQ.
        unfold get_reduction in RU. destruct (m_spec m) as [|? []|]; try discriminate SR. destruct (c_spec kk) as [|[] []|]; discriminate. }
      destruct (call_declares cfg fuel t tl ta a p ar b _ _ c1 _ c2 T1 T2 T3 T4 T5 T6
          (built_in_type cfg c1 s1' _ _ _ ES1 LK1 EX1 B1) (built_in_type cfg c1 s1' _ _ _ ES1 LK1 EX1 B2) Ec)
          as [(e & [=] & _)|(DD & _)].
      destruct (execute_reduction_trace cfg fuel a b c1 c2 K DD) as (ex & ex2 & d1 & d2 & d3 & d4 & d5 & x & y & G1 & G2 & G3 & G4 & G5 & G6).
      assert (ED : c_delta d5 = c_delta c1 /\ x = x1 /\ y = x2).
      { apply still_reduce in G1. destruct G1 as [_ G1].
        assert (Y : c_delta d2 = c_delta d1).
        { destruct ex; [injection G2 as _ <-; reflexivity|apply still_inferred in G2; apply G2]. }
        apply still_need in G3. destruct G3 as [_ G3].
        assert (CF : forall q, concept_from_ast cfg fuel q = match t_concept q with Some i => cret i | None => concept_from_ast cfg fuel q end).
        { intros q. destruct q as [? [?|] ?|? [?|] ? ? ? ?]; reflexivity. }
        rewrite CF, Ca in G4. rewrite CF, Cb in G5. injection G4 as <- <-. injection G5 as <- <-. split; [congruence|auto]. }
      destruct ED as (ED & -> & ->).
      pose proof (update_reduction_last cfg fuel _ _ _ _ _ G6) as (ch & PE & AF). unfold pending in PE. rewrite ED in PE.
      destruct (one_more (c_delta c1) (c_delta c2) s2 _ _ (proj2 SD1) ST2 PE ltac:(discriminate) AM2) as (s1x & AM1x & KEEP).
      pose proof (amounts_same cfg snap fuel _ _ _ AM1 AM1x) as ->.
      assert (HL : harmless snap s1 (DReduce x1 ch)) by exact (word_unlisted _ _ _ _ AM1 NM F1 UL).
      specialize (KEEP HL).
      destruct (declared cfg fuel command c [] c' a b F RD RR K E) as [(e & Z & _)|(_ & x & y & RE & Px & Py & ON)].
      { destruct (unerring [] eq_refl e Z). }
      rewrite (Px _ Ca), (Py _ Cb), !place_of in *.
      exists (rho snap x1), (rho snap x2). split; [apply (found_same s2); auto|]. split; [apply (found_same s2); auto|].
      split; [exact RE|]. split; [apply (older_name cfg snap fuel S P _ _ _ _ AM1 NM F1)|].
      split; [apply (older_name cfg snap fuel S P _ _ _ _ AM1 NM F2)|exact ON].
    Qed.

    Theorem spoken_definition command c' u c0 a b l r w1 w2 w3 :
      ast_from_expression cfg fuel command c = Ok (Val u, c0) -> nested_three u w1 w2 w3 ->
      reads_as_definition cfg fuel c command a b -> t_exp b = Some (l, r) ->
      is_leaf_variable a = false -> is_leaf_variable l = false -> is_leaf_variable r = false ->
      simple_word snap w1 -> simple_word snap w2 -> simple_word snap w3 ->
      execute cfg fuel command c = Ok ([], c') ->
      exists x y z, found_under (c_snap c') w1 x /\ found_under (c_snap c') w2 y /\ found_under (c_snap c') w3 z /\
        composed (c_snap c') x y z /\
        (lt x n0 -> found_under snap w1 x) /\ (lt y n0 -> found_under snap w2 y) /\ (lt z n0 -> found_under snap w3 z) /\
        only_composition_of x snap (c_snap c').
    Proof.
      intros E0 (ul & ut & t1 & up & uf & uq & t2 & t3 & P1 & P2 & P3 & P4 & (o1 & k1 & ->) & (o2 & k2 & ->) & (o3 & k3 & ->))
        RR O V1 V2 V3 SW1 SW2 SW3 E.
      pose proof RR as (t & c1 & tl & ta & p & ar & nl & na & RT & T1 & T2 & T3 & T4 & T5 & B1 & T6 & B2).
      destruct (command_words cfg fuel F D command c [] c' u c0 R E0 E (unerring [] eq_refl))
        as (t' & c1' & c2 & s2 & Rt & Ec & SD1 & N1 & SD2 & ST2 & AM2 & X1 & X2).
      rewrite RT in Rt. injection Rt as <- <-.
      destruct (command_run cfg fuel _ _ _ _ _ _ F RD E RT)
        as (z & c2' & s1' & s2' & EC & EA & ES1 & ES2 & EX & LK1 & EX1 & _ & ST & LK2 & A2 & CC & FR & OT).
      rewrite Ec in EC. injection EC as <- <-.
      assert (IN : forall q, In q [(w1, o1); (w2, o2); (w3, o3)] -> In q (tree_names u)).
      { intros q J. rewrite (names_pair _ _ _ P1), (names_pair _ _ _ P2), (names_pair _ _ _ P3), (names_pair _ _ _ P4), !in_app_iff.
        cbn in J |- *. tauto. }
      destruct (N1 w1 o1) as (x1 & Eo1 & H1); [apply IN; cbn; auto|]. destruct (N1 w2 o2) as (x2 & Eo2 & H2); [apply IN; cbn; auto|].
      destruct (N1 w3 o3) as (x3 & Eo3 & H3); [apply IN; cbn; auto|].
      pose proof (read_names cfg fuel _ _ _ _ RD RT) as NM.
      destruct (found_stays cfg snap fuel S P _ _ ST2 (proj2 SD1) s2 AM2) as (s1 & l0 & AM1 & _).
      assert (CA : (t_concept a = Some x1 /\ t_exp a = None) /\ t_concept l = Some x2 /\ t_concept r = Some x3).
      { pose proof (read_spoken command u c0 t c1 s1 E0 RT AM1) as SP.
        destruct (spoken_pair _ _ _ _ _ P1 SP) as (l' & r' & Q1 & _ & SP2). rewrite T2 in Q1. injection Q1 as <- <-.
        destruct (spoken_pair _ _ _ _ _ P2 SP2) as (l' & r' & Q2 & Sa & SP3). rewrite T3 in Q2. injection Q2 as <- <-.
        destruct (spoken_pair _ _ _ _ _ P3 SP3) as (l' & r' & Q3 & _ & Sb). rewrite T4 in Q3. injection Q3 as <- <-.
        destruct (spoken_pair _ _ _ _ _ P4 Sb) as (l' & r' & Q4 & Sl & Sr). rewrite O in Q4. injection Q4 as <- <-.
        split; [exact (spoken_word _ _ _ _ _ _ SW1 Eo1 V1 Sa)|]. split; [exact (proj1 (spoken_word _ _ _ _ _ _ SW2 Eo2 V2 Sl))|exact (proj1 (spoken_word _ _ _ _ _ _ SW3 Eo3 V3 Sr))]. }
      destruct CA as ([Ca Xa] & Cl & Cr). pose proof (H1 _ AM1) as F1. pose proof (H2 _ AM1) as F2. pose proof (H3 _ AM1) as F3.
      destruct (call_defines cfg fuel t tl ta a p ar b _ _ x1 l r c1 _ c2 T1 T2 T3 T4 T5 T6
        (built_in_type cfg c1 s1' _ _ _ ES1 LK1 EX1 B1) (built_in_type cfg c1 s1' _ _ _ ES1 LK1 EX1 B2) Xa Ca O Ec)
        as [(e & [=] & _)|(DD & _)].
      destruct (okt_parts _ t OT _ _ T2) as [_ Ota]. destruct (okt_parts _ ta Ota _ _ T3) as [_ Op].
      destruct (okt_parts _ p Op _ _ T4) as [_ Oo]. destruct (okt_parts _ b Oo _ _ O) as [Ol Or].
      destruct (execute_composition_changes cfg fuel a b x1 l r c1 _ c2 Xa Ca O (okt_spaced _ l Ol) (okt_spaced _ r Or) DD)
        as (_ & c4 & c5 & xl & xr & m & x & E4 & E5 & RM & CD & PE).
      assert (CF : forall q, concept_from_ast cfg fuel q = match t_concept q with Some i => cret i | None => concept_from_ast cfg fuel q end).
      { intros q. destruct q as [? [?|] ?|? [?|] ? ? ? ?]; reflexivity. }
      rewrite CF, Cl in E4. rewrite CF, Cr in E5. injection E4 as <- <-. injection E5 as <- <-.
      destruct (compose_delta_shape _ _ _ _ _ CD) as (ch & Ech). subst x.
      destruct (one_more (c_delta c1) (c_delta c2) s2 _ _ (proj2 SD1) ST2 PE ltac:(discriminate) AM2) as (s1x & AM1x & KEEP).
      pose proof (amounts_same cfg snap fuel _ _ _ AM1 AM1x) as ->.
      assert (HL : harmless snap s1 (DCompose (m_id m) ch)).
      { rewrite ES1 in RM. pose proof (proj1 (amounts_linked cfg snap fuel S P _ _ AM1)) as LK.
        destruct (linked_comp _ _ _ _ _ _ _ LK RM) as (_ & CM).
        pose proof (word_elementary _ _ _ _ AM1 NM F1 SW1) as [EL _]. rewrite EL in CM.
        assert (MI : m_id m = x1) by exact (read_id _ _ _ _ _ (sane_numbers _ S) RM).
        unfold compose_delta in CD. apply obind_ok in CD. destruct CD as (mc & MC & CD).
        destruct mc as [[bl br fv bv|[| |]]|]; try discriminate; injection CD as <-.
        - exfalso. destruct (m_composition m) as [[? ?]|] eqn:Q; [discriminate CM|]. unfold m_maybe_composition in MC. destruct m as [o chs comp red|uc]; cbn in Q.
          + subst comp. destruct (maybe_composition o) as [[? ? ? ?|?]|]; discriminate MC.
          + injection MC as MC. unfold maybe_composition, get_composition in *. destruct (c_spec uc) as [|[] ?|]; congruence.
        - cbn. rewrite MI. intros p0 q0 J. apply composed_at in J. congruence. }
      specialize (KEEP HL).
      destruct (defined cfg fuel command c [] c' a b x1 l r F RD RR Xa Ca O E) as [(e & Z & _)|(_ & y & z & CO & Py & Pz & ON)].
      { destruct (unerring [] eq_refl e Z). }
      rewrite (Py _ Cl), (Pz _ Cr), !place_of in *.
      exists (rho snap x1), (rho snap x2), (rho snap x3). split; [apply (found_same s2); auto|]. split; [apply (found_same s2); auto|].
      split; [apply (found_same s2); auto|]. split; [exact CO|].
      split; [apply (older_name cfg snap fuel S P _ _ _ _ AM1 NM F1)|].
      split; [apply (older_name cfg snap fuel S P _ _ _ _ AM1 NM F2)|].
      split; [apply (older_name cfg snap fuel S P _ _ _ _ AM1 NM F3)|exact ON].
    Qed.
  End Command.
End Spoken.
