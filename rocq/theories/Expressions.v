(** Which concept an expression in a declaration stands for. *)
From Verif Require Import Snapshot Delta Search Context StoreSpec NameSpec FrameSpec MapFacts AstFacts StoreFacts StoreInv
  RangeFacts History Sim SimRead Steps Keep Quiet SearchPlain Frames Reductions Declare Links Meaning OneName.
From Coq Require Import String List Relations PeanoNat Lia Bool.
Import ListNotations.
Local Open Scope zia_scope.

(** The concept [x] of the store [s'] is the one that the expression [t] stands for, when
    [t] was read in the store [s]: a symbol or expression that has a concept stands for that
    concept; a pair that has none stands for the composition of what its parts stand for. *)
Inductive stands_for (s s' : snapshot) : tree -> nat -> Prop :=
| stands_known t i : t_concept t = Some i -> stands_for s s' t (place s i)
| stands_pair t l r xl xr x :
    t_concept t = None -> t_exp t = Some (l, r) ->
    stands_for s s' l xl -> stands_for s s' r xr -> composed s' x xl xr -> stands_for s s' t x.
(** Every symbol of [t] has a concept. *)
Fixpoint grounded (t : tree) : Prop :=
  match t with
  | TLeaf _ c _ => c <> None
  | TBranch _ c l r _ _ => c <> None \/ (grounded l /\ grounded r)
  end.
(** No text that is kept contains a space. *)
Definition no_spaced_text (s : snapshot) : Prop :=
  forall n t, has_text s n t -> smem N.eqb c_space t = false.

Lemma stands_unique s s' t : compositions_are_unique s' -> forall x y,
  stands_for s s' t x -> stands_for s s' t y -> x = y.
Proof.
  intros U. induction t as [w c k|w c l IHl r IHr fv bv]; intros x y H K;
    inversion H as [? i Hi|? l1 r1 xl xr ? Hn He Hl Hr Hc]; subst; inversion K as [? j Kj|? l2 r2 yl yr ? Kn Ke Kl Kr Kc]; subst;
    try congruence.
  all: cbn in *; try discriminate.
  injection He as <- <-. injection Ke as <- <-.
  rewrite (IHl _ _ Hl Kl), (IHr _ _ Hr Kr) in Hc. exact (U _ _ _ _ Hc Kc).
Qed.

Section Standing.
  Variable cfg : config.
  Variable fuel : nat.
  Hypothesis F : fair cfg.
  Variable snap : snapshot.
  Hypothesis S : sane snap.
  Hypothesis PV : prev_unc snap = [].
  Hypothesis LA : links_agree snap.
  Hypothesis TR : strings_true snap.
  Local Notation P := (below (size snap)).
  Definition all_safe (d : delta) : Prop := forall id x, In (id, x) (d_order (overlay d)) -> links_safe (dbg cfg) x.
  (** The changes [d] recorded so far, and the store they lead to. *)
  Definition reached (d : delta) (s : snapshot) : Prop :=
    steps cfg P snap fuel delta_default d /\ apply_directs (dbg cfg) (d_order (overlay d)) snap = Ok s /\ all_safe d.

  Lemma reached_facts d s : reached d s ->
    linked cfg snap true d s /\ links_agree s /\ strings_true s /\ strings_linked snap d s.
  Proof.
    intros (ST & A & SF).
    destruct (steps_keep cfg snap fuel true (fun d s => (all_safe d -> links_agree s) /\ strings_true s /\ strings_linked snap d s)
                d s S PV ST A (fun _ id x I => safe_hands _ _ (SF id x I))) as [LK (K & K2 & K3)].
    - intros d1 sa x id d2 sb H1 H2 H3 H4 H5 H6 H7 H8 H9 (T0 & T1 & T2). split; [|split].
      + exact (step_links cfg snap fuel S PV d1 sa x id d2 sb H1 H2 H3 H4 H5 H6 H7 H8 H9 T0).
      + exact (step_true _ _ _ _ _ (sane_numbers _ (lk_sane _ _ _ _ _ H1)) H8 T1).
      + exact (step_strings cfg snap fuel true d1 sa x id d2 sb H1 H2 H3 H4 H5 H6 H7 H8 H9 T2).
    - split; [intros _; exact LA|]. split; [exact TR|]. intros u. reflexivity.
    - auto.
  Qed.
  (** What was composed stays composed. *)
  Lemma reached_keeps d d' s' :
    steps cfg P snap fuel delta_default d -> steps cfg P snap fuel d d' -> reached d' s' ->
    exists s, reached d s /\ extends s s' /\ (forall i p, comp_at s i = Some p -> comp_at s' i = Some p).
  Proof.
    intros S0 ST. revert s'. induction ST as [d|d d1 x id d2 ST IH LG G U]; intros s' R.
    - exists s'. split; [exact R|]. split; [apply extends_refl|]. auto.
    - destruct R as (ST' & A & SF).
      pose proof (steps_single _ _ _ _ _ _ (steps_trans _ _ _ _ _ _ _ S0 ST) eq_refl) as Ld.
      destruct (update_order _ _ _ _ Ld U) as [EO _].
      rewrite EO, apply_directs_app in A. apply obind_ok in A. destruct A as (s1 & A1 & A2).
      cbn in A2. apply obind_ok in A2. destruct A2 as (s2 & A2 & A3). injection A3 as <-.
      assert (R1 : reached d1 s1).
      { split; [exact (steps_trans _ _ _ _ _ _ _ S0 ST)|]. split; [exact A1|].
        intros j y I. apply (SF j y). rewrite EO, in_app_iff. auto. }
      destruct (IH S0 s1 R1) as (s & R & EX & K). exists s. split; [exact R|].
      destruct (reached_facts d1 s1 R1) as (LK & _).
      pose proof (lk_sane _ _ _ _ _ LK) as S1.
      split; [eapply extends_trans; [exact EX|]; eapply step_extends; [apply (sane_numbers s1 S1)|exact A2]|].
      intros i p C. specialize (K i p C).
      assert (SX : links_safe (dbg cfg) x) by (apply (SF id x); rewrite EO, in_app_iff; right; left; reflexivity).
      assert (G1 : good_direct (below (size s1)) x).
      { revert G. apply good_direct_mono. intros [n|u]; cbn; [|auto]. intros L.
        rewrite (lk_size _ _ _ _ _ LK). lia. }
      destruct (step_comp _ _ _ _ _ S1 G1 A2) as [(C1 & _)|(c & l & r & CH & C1 & _)].
      + intros c l r ->. exact SX.
      + rewrite C1. exact K.
      + rewrite C1. destruct (Nat.eqb_spec i c) as [->|]; [|exact K].
        destruct (legit_fresh cfg snap fuel d1 s1 x id d2 s2 c l r S PV LK A1 (proj1 R1) LG G U A2 SX CH) as [N _].
        congruence.
  Qed.

  Lemma found_composed l r c x c' s' :
    P l -> P r -> cgood P snap c -> steps cfg P snap fuel delta_default (c_delta c) ->
    find_or_insert_composition cfg l r c = Ok (Val x, c') -> reached (c_delta c') s' ->
    comp_at s' (rho snap x) = Some (rho snap l, rho snap r).
  Proof.
    intros Pl Pr C ST E R. pose proof R as (ST' & A & SF).
    unfold find_or_insert_composition in E. apply bind_back in E. destruct E as (m & c1 & E1 & E).
    unfold c_read in E1. apply lift_back in E1. destruct E1 as [-> E1].
    destruct m as [m|e]; [|destruct E; discriminate]. rewrite (proj1 C) in E1.
    destruct (m_find_as_hand m r HLeft) as [y|] eqn:FM.
    - injection E as <- <-. destruct (reached_facts _ _ R) as (LK & [_ LG] & _).
      destruct (linked_read _ _ _ _ _ _ _ LK E1) as (D & k & L & SM).
      destruct (sim_hand_dom _ _ _ _ _ SM eq_refl _ _ _ FM) as [Dr _].
      pose proof (sim_hand _ _ _ _ _ SM eq_refl r HLeft Dr) as X. rewrite FM in X. cbn in X.
      apply LG. left. unfold hand_at. rewrite L. symmetry. exact X.
    - pose proof E as E'. apply update_pending in E'. destruct E' as (id & Ei & _ & PE & U & u & Eu).
      injection Ei as <-. subst x.
      change (apply_directs (dbg cfg) (pending c') snap = Ok s') in A. rewrite PE, apply_directs_app in A. apply obind_ok in A. destruct A as (s1 & A1 & A2).
      cbn [apply_directs] in A2. apply obind_ok in A2. destruct A2 as (s2 & A2 & A3). injection A3 as <-.
      assert (R1 : reached (c_delta c) s1).
      { split; [exact ST|]. split; [exact A1|]. intros j y I. apply (SF j y). change (In (j, y) (pending c')). rewrite PE, in_app_iff. auto. }
      destruct (reached_facts _ _ R1) as (LK & _). pose proof (lk_sane _ _ _ _ _ LK) as S1.
      assert (G1 : good_direct (below (size s1)) (DNew (NComposition l r))).
      { apply (good_direct_mono P); [|split; assumption]. intros [n|v]; cbn; [|auto]. intros L.
        rewrite (lk_size _ _ _ _ _ LK). lia. }
      pose proof (lk_prev _ _ _ _ _ LK) as PR.
      destruct (step_comp _ _ _ _ _ S1 G1 A2) as [(C1 & _ & NC)|(k & a & b & CH & C1 & _)]; [discriminate| |].
      + pose proof (apply_direct_effect _ _ (sane_numbers s1 S1) _ _ _ A2) as (_ & us & EF & _).
        inversion EF; subst. exfalso. eapply NC. apply CcNew; eassumption.
      + inversion CH as [l0 r0 nl nr TL TN NE| | | |]; subst.
        destruct (com_rho snap s1 _ PR l a Pl TL) as [-> _]. destruct (com_rho snap s1 _ PR r b Pr TN) as [-> _].
        rewrite C1. replace (rho snap (Uncommitted u)) with (size s1).
        * rewrite Nat.eqb_refl. reflexivity.
        * cbn. rewrite (lk_size _ _ _ _ _ LK). f_equal.
          destruct (c_delta c) as [l0 i0]. cbn in U. oinv. subst.
          match goal with H : update_layer _ _ = _ |- _ => apply Sim.update_layer_spec in H;
            destruct H as (EI & _) end. cbn in *. congruence.
  Qed.
  Lemma stands_later s1 s2 t x :
    (forall i p, comp_at s1 i = Some p -> comp_at s2 i = Some p) -> stands_for snap s1 t x -> stands_for snap s2 t x.
  Proof.
    intros K H. induction H as [t i T|t l r xl xr x T1 T2 _ IHl _ IHr C]; [apply stands_known; exact T|].
    eapply stands_pair; eauto. apply composed_at, K, composed_at, C.
  Qed.
  Lemma text_recorded c w id s :
    cgood P snap c -> reached (c_delta c) s -> concept_from_label cfg snap (c_delta c) fuel w = Ok (Some id) ->
    exists n, has_text s n w.
  Proof.
    intros C R E. destruct (reached_facts _ _ R) as (LK & _ & T & SL).
    unfold concept_from_label in E. apply obind_ok in E. destruct E as (v & E & E').
    destruct v as [v|]; [|discriminate]. clear E'.
    pose proof (lk_layers _ _ _ _ _ LK) as Ld. specialize (SL w).
    assert (X : exists n, aget text_eqb w (string_map s) = Some n).
    { unfold get_string_concept in E. apply obind_ok in E. destruct E as (ch & E1 & E2).
      unfold delta_string in E1. rewrite Ld in E1. cbn in E1.
      destruct (aget text_eqb w (d_string (overlay (c_delta c)))) as [[b|b a|b]|]; try solve [destruct SL];
        injection E1 as <-.
      - eauto.
      - rewrite SL. destruct (aget text_eqb w (string_map snap)); [eauto|discriminate]. }
    destruct X as (n & X). exists n. apply T, X.
  Qed.
  Lemma concept_stands t : okt P t -> grounded t -> forall c x c' s',
    cgood P snap c -> steps cfg P snap fuel delta_default (c_delta c) ->
    concept_from_ast cfg fuel t c = Ok (Val x, c') -> reached (c_delta c') s' -> no_spaced_text s' ->
    stands_for snap s' t (rho snap x).
  Proof.
    induction t as [w k kd|w k l IHl r IHr fv bv]; intros O G c x c' s' C ST E R NS; cbn [concept_from_ast t_concept] in E.
    - destruct k as [k|]; [|destruct G; reflexivity]. injection E as <- <-. rewrite <- place_rho.
      apply stands_known. reflexivity.
    - destruct k as [k|]; [injection E as <- <-; rewrite <- place_rho; apply stands_known; reflexivity|].
      pose proof (okt_spaced _ _ O) as SP. cbn [spaced] in SP. destruct SP as [?|(SP & _)]; [congruence|].
      destruct O as (_ & Ol & Or & _). destruct G as [?|[Gl Gr]]; [congruence|].
      apply bind_back in E. destruct E as (lb & c1 & E1 & E).
      apply lift_back in E1. destruct E1 as [-> E1].
      destruct lb as [lb|]; [|destruct E; discriminate]. rewrite (proj1 C) in E1.
      destruct lb as [lb|].
      + injection E as <- <-. destruct (text_recorded c _ lb s' C R E1) as (n & HT).
        apply NS in HT. congruence.
      + apply bind_back in E. destruct E as (xl & c2 & E2 & E).
        pose proof (cok_from_ast cfg F P (fun u => I) snap (sane_ids _ S) fuel l Ol c xl c2 C E2) as (C2 & ST2 & Gl2).
        destruct xl as [xl|]; [|destruct E; discriminate].
        apply bind_back in E. destruct E as (xr & c3 & E3 & E).
        pose proof (cok_from_ast cfg F P (fun u => I) snap (sane_ids _ S) fuel r Or c2 xr c3 C2 E3) as (C3 & ST3 & Gr3).
        destruct xr as [xr|]; [|destruct E; discriminate].
        apply bind_back in E. destruct E as (y & c4 & E4 & E).
        pose proof (cok_find_or_insert cfg P (fun u => I) snap (sane_ids _ S) fuel xl xr Gl2 Gr3 c3 y c4 C3 E4) as (C4 & ST4 & _).
        destruct y as [y|]; [|destruct E; discriminate].
        rewrite SP in E. injection E as <- <-.
        assert (S2 : steps cfg P snap fuel delta_default (c_delta c2)) by exact (steps_trans _ _ _ _ _ _ _ ST ST2).
        assert (S3 : steps cfg P snap fuel delta_default (c_delta c3)) by exact (steps_trans _ _ _ _ _ _ _ S2 ST3).
        destruct (reached_keeps _ _ _ S3 ST4 R) as (s3 & R3 & EX3 & K3).
        destruct (reached_keeps _ _ _ S2 ST3 R3) as (s2 & R2 & EX2 & K2).
        assert (NS3 : no_spaced_text s3) by (intros n w' H; apply (NS n), EX3, H).
        assert (NS2 : no_spaced_text s2) by (intros n w' H; apply (NS3 n), EX2, H).
        apply (stands_pair _ _ _ l r (rho snap xl) (rho snap xr)); try reflexivity.
        * apply (stands_later s3); [exact K3|]. apply (stands_later s2); [exact K2|].
          exact (IHl Ol Gl c xl c2 s2 C ST E2 R2 NS2).
        * apply (stands_later s3); [exact K3|]. exact (IHr Or Gr c2 xr c3 s3 C2 S2 E3 R3 NS3).
        * apply composed_at. exact (found_composed xl xr c3 y c4 s' Gl2 Gr3 C3 S3 E4 R).
  Qed.
End Standing.

Section Declared.
  Variable cfg : config.
  Variable fuel : nat.

  (** The course of an accepted declaration. *)
  Lemma execute_reduction_trace t nf c c' :
    t_key t <> t_key nf -> execute_reduction cfg fuel t nf c = Ok (Val tt, c') ->
    exists ex ex2 c1 c2 c3 c4 c5 x y,
      c_reduce cfg fuel t c = Ok (Val ex, c1) /\
      match ex with Some r => cret (Some r) | None => c_inferred cfg fuel t end c1 = Ok (Val ex2, c2) /\
      need_delta c2 = Ok (Val tt, c3) /\
      concept_from_ast cfg fuel t c3 = Ok (Val x, c4) /\ concept_from_ast cfg fuel nf c4 = Ok (Val y, c5) /\
      update_reduction cfg fuel x (display t) y c5 = Ok (Val tt, c').
  Proof.
    intros K E. unfold execute_reduction in E.
    destruct (t_contains nf t); [discriminate|].
    destruct (key_eqb_spec (t_key t) (t_key nf)) as [?|_]; [contradiction|].
    apply bind_back in E. destruct E as (ex & c1 & E1 & E). destruct ex as [ex|]; [|destruct E; discriminate].
    apply bind_back in E. destruct E as (ex2 & c2 & E2 & E). destruct ex2 as [ex2|]; [|destruct E; discriminate].
    destruct ex2 as [[y0 z0]|]; [discriminate|].
    apply bind_back in E. destruct E as (u & c3 & E3 & E). destruct u as [[]|]; [|destruct E; discriminate].
    apply bind_back in E. destruct E as (x & c4 & E4 & E). destruct x as [x|]; [|destruct E; discriminate].
    apply bind_back in E. destruct E as (y & c5 & E5 & E). destruct y as [y|]; [|destruct E; discriminate].
    exists ex, None, c1, c2, c3, c4, c5, x, y. auto 10.
  Qed.
  Lemma update_reduction_last x w y c c' :
    update_reduction cfg fuel x w y c = Ok (Val tt, c') ->
    exists ch, pending c' = pending c ++ [(x, DReduce x ch)] /\ Delta.after ch = Some y.
  Proof.
    intros E. unfold update_reduction in E.
    apply bind_back in E. destruct E as (n & c6 & E6 & E). apply still_lift in E6. destruct E6 as [_ D6].
    destruct n as [n|]; [|destruct E; discriminate].
    destruct (option_eqb cid_eqb n (Some x)); [discriminate|].
    apply bind_back in E. destruct E as (m & c7 & E7 & E). apply still_read in E7. destruct E7 as [_ D7].
    destruct m as [m|]; [|destruct E; discriminate].
    destruct (option_eqb cid_eqb (m_reduction m) (Some y)); [discriminate|].
    apply bind_back in E. destruct E as (rc & c8 & E8 & E). apply still_lift in E8. destruct E8 as [_ D8].
    destruct rc as [rc|]; [|destruct E; discriminate].
    destruct (cid_eqb y rc); [discriminate|].
    apply bind_back in E. destruct E as (w' & c9 & E9 & E). apply update_pending in E9.
    destruct E9 as (id & -> & _ & P9 & _ & ID). subst id. injection E as <-.
    eexists. split; [rewrite P9; unfold pending in *; rewrite D8, D7, D6; reflexivity|]. destruct n; reflexivity.
  Qed.

  Theorem expression_declared command c c' a b :
    fair cfg -> ready c -> links_agree (c_snap c) -> strings_true (c_snap c) ->
    reads_as_reduction cfg fuel c command a b -> t_key a <> t_key b -> grounded a -> grounded b ->
    execute cfg fuel command c = Ok ([], c') -> no_spaced_text (c_snap c') ->
    exists x y, stands_for (c_snap c) (c_snap c') a x /\ stands_for (c_snap c) (c_snap c') b y /\
      reduces (c_snap c') x y /\ only_reduction_of x (c_snap c) (c_snap c') /\ links_agree (c_snap c').
  Proof.
    intros F RD LA TR (t & c1 & tl & ta & p & ar & nl & na & RT & T1 & T2 & T3 & T4 & T5 & B1 & T6 & B2) K Ga Gb E NS.
    destruct (command_run cfg fuel _ _ _ _ _ _ F RD E RT)
      as (z & c2 & s1 & s2 & EC & EA & ES1 & ES2 & EX & LK1 & EX1 & _ & ST & LK2 & A2 & CC & FR & OT).
    destruct (read_good cfg fuel command c t c1 F RD RT) as (C1 & ST1 & _).
    destruct (okt_parts _ t OT _ _ T2) as [_ Ota]. destruct (okt_parts _ ta Ota _ _ T3) as [Oa Op].
    destruct (okt_parts _ p Op _ _ T4) as [_ Ob]. pose proof (okt_spaced _ a Oa) as Sa. pose proof (okt_spaced _ b Ob) as Sb.
    pose proof (names_build _ (read_names _ _ _ _ _ _ RD RT)) as NM.
    pose proof (ready_sane c RD) as S. pose proof (ready_prev c RD) as P.
    destruct (call_declares cfg fuel t tl ta a p ar b _ _ c1 z c2 T1 T2 T3 T4 T5 T6
      (built_in_type cfg c1 s1 _ _ _ ES1 LK1 EX1 B1) (built_in_type cfg c1 s1 _ _ _ ES1 LK1 EX1 B2) EC)
      as [(e & -> & D)|(D & ->)]; [destruct (error_not_empty e); auto|].
    destruct (execute_reduction_trace a b c1 c2 K D) as (ex & ex2 & d1 & d2 & d3 & d4 & d5 & x & y & F1 & F2 & F3 & F4 & F5 & F6).
    pose proof (update_reduction_last _ _ _ _ _ F6) as (ch & PE & AF).
    set (snap := c_snap c) in *. set (Q := below (size snap)) in *.
    assert (U : forall u, Q (Uncommitted u)) by (intros u; exact I).
    pose proof (cok_reduce cfg F Q U snap (sane_ids _ S) fuel a Oa c1 _ d1 C1 F1) as (D1 & X1 & _).
    assert (Y2 : cgood Q snap d2 /\ steps cfg Q snap fuel (c_delta d1) (c_delta d2)).
    { destruct ex as [w|].
      - injection F2 as <- <-. split; [exact D1|apply steps_refl].
      - pose proof (cok_inferred cfg F Q U snap (sane_ids _ S) fuel a Oa d1 _ d2 D1 F2) as (? & ? & _). auto. }
    destruct Y2 as [D2 X2].
    pose proof (cok_need cfg Q snap fuel d2 _ d3 D2 F3) as (D3 & X3 & _).
    pose proof (cok_from_ast cfg F Q U snap (sane_ids _ S) fuel a Oa d3 _ d4 D3 F4) as (D4 & X4 & Gx).
    pose proof (cok_from_ast cfg F Q U snap (sane_ids _ S) fuel b Ob d4 _ d5 D4 F5) as (D5 & X5 & Gy).
    pose proof (cok_update_reduction cfg Q U snap (sane_ids _ S) fuel x (display a) y Gx Gy d5 _ c2 D5 F6) as (D6 & X6 & _).
    assert (S3 : steps cfg Q snap fuel delta_default (c_delta d3)).
    { exact (steps_trans _ _ _ _ _ _ _ (steps_trans _ _ _ _ _ _ _ (steps_trans _ _ _ _ _ _ _ ST1 X1) X2) X3). }
    assert (S4 : steps cfg Q snap fuel delta_default (c_delta d4)) by exact (steps_trans _ _ _ _ _ _ _ S3 X4).
    assert (S5 : steps cfg Q snap fuel delta_default (c_delta d5)) by exact (steps_trans _ _ _ _ _ _ _ S4 X5).
    destruct (execute_reduction_changes cfg fuel a b c1 _ c2 Sa Sb K D) as (l & x' & y' & ch' & PE' & PF & AF' & _).
    assert (EL : pending c1 ++ l = pending d5 /\ x' = x).
    { rewrite PE, app_assoc in PE'. apply app_inj_tail in PE'. destruct PE' as [A B]. injection B as -> _. auto. }
    destruct EL as [EL ->].
    assert (R2 : reached cfg fuel snap (c_delta c2) s2).
    { split; [exact ST|]. split; [exact A2|]. intros id w I. change (In (id, w) (pending c2)) in I.
      rewrite PE', !in_app_iff in I. rewrite Forall_forall in NM, PF.
      assert (BS : building w -> links_safe (dbg cfg) w).
      { intros [B|(l' & r' & ->)]; [|exact Logic.I]. destruct w as [[]|? []|? []|?]; cbn in *; auto; contradiction. }
      destruct I as [I|[I|[I|[]]]]; [apply BS, (NM _ I)|apply BS, (PF _ I)|]. injection I as <- <-. exact Logic.I. }
    destruct (reached_keeps cfg fuel snap S P LA TR _ _ _ S5 X6 R2) as (s5 & R5 & EX5 & K5).
    destruct (reached_keeps cfg fuel snap S P LA TR _ _ _ S4 X5 R5) as (s4 & R4 & EX4 & K4).
    assert (NS2 : no_spaced_text s2).
    { intros n w (k & L & H). apply (NS n w). exists k. unfold lookup in *. rewrite CC. auto. }
    assert (NS5 : no_spaced_text s5) by (intros n w H; apply (NS2 n), EX5, H).
    assert (NS4 : no_spaced_text s4) by (intros n w H; apply (NS5 n), EX4, H).
    assert (KC : forall i q, comp_at s2 i = Some q -> comp_at (c_snap c') i = Some q).
    { intros i q. unfold comp_at. rewrite (same_concepts_at _ _ CC). auto. }
    exists (rho snap x), (rho snap y). split; [|split; [|split; [|split]]].
    - apply (stands_later snap s2); [exact KC|]. apply (stands_later snap s5); [exact K5|]. apply (stands_later snap s4); [exact K4|].
      exact (concept_stands cfg fuel F snap S P LA TR a Oa Ga d3 x d4 s4 D3 S3 F4 R4 NS4).
    - apply (stands_later snap s2); [exact KC|]. apply (stands_later snap s5); [exact K5|].
      exact (concept_stands cfg fuel F snap S P LA TR b Ob Gb d4 y d5 s5 D4 S4 F5 R5 NS5).
    - apply reduces_at. unfold red_at. rewrite (same_concepts_at _ _ CC).
      pose proof (last_sets cfg fuel snap (c_delta c2) s2 x ch (pending d5) S P ST A2 PE) as LS.
      unfold red_at in LS. rewrite LS, AF. reflexivity.
    - apply (one_reduction _ (c_delta c2) s2); auto.
      intros id w I. change (In (id, w) (pending c2)) in I. rewrite PE', !in_app_iff in I.
      rewrite Forall_forall in NM, PF. destruct I as [I|[I|[I|[]]]].
      + left. exact (NM _ I).
      + left. exact (PF _ I).
      + right. injection I as <- <-. eauto.
    - apply (links_same s2); [exact CC|]. apply (reached_facts cfg fuel snap S P LA TR _ _ R2).
  Qed.
End Declared.
