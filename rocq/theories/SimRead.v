(** What is read through the pending changes agrees with the store they produce. *)
From Verif Require Import Snapshot StoreSpec MapFacts AstFacts StoreFacts StoreInv RangeFacts History Sim.
From Coq Require Import List String.
Import ListNotations.
Local Open Scope zia_scope.

Section Sim.
  Variable cfg : config.
  Variable snap : snapshot.
  Local Notation n0 := (size snap).
  Local Notation rho := (rho snap).
  Local Notation dom := (dom snap).
  Local Notation co_step := (co_step snap).

  (** ** Concepts read through the delta *)
  Definition m_spec (m : mixed) : specific cid :=
    match m with
    | MUnc c => strip (c_spec c)
    | MPrev o _ comp red =>
      match c_spec o with
      | Concrete cc => Concrete cc
      | StringPart t => StringPart t
      | Abstract k _ =>
        Abstract (match comp with
                  | Some (l, r) => Comp l r [] []
                  | None => match k with Comp _ _ _ _ => Leaf Constant | Leaf ch => Leaf ch end
                  end) red
      end
    end.
  Definition seen (sp : specific cid) : specific nat :=
    match sp with
    | Concrete cc => Concrete cc
    | StringPart t => StringPart t
    | Abstract k red =>
      Abstract (match k with Comp l r _ _ => Comp (rho l) (rho r) [] [] | Leaf ch => Leaf ch end)
               (option_map rho red)
    end.
  Definition spec_red {I} (sp : specific I) : option I :=
    match sp with Abstract _ r => r | _ => None end.
  Definition spec_comp {I} (sp : specific I) : option (I * I) :=
    match sp with Abstract (Comp l r _ _) _ => Some (l, r) | _ => None end.
  Definition from_mem (m : mixed) (u : cid) : bool :=
    match m with
    | MPrev o ch _ _ =>
      match aget cid_eqb u (ch_from ch) with
      | Some b => b
      | None => match u with Committed n => smem Nat.eqb n (reduces_from o) | _ => false end
      end
    | MUnc c => smem cid_eqb u (reduces_from c)
    end.

  Record sim (h : bool) (num : nat) (m : mixed) (c : concept nat) : Prop := Sim {
    sim_id : c_id c = rho (m_id m);
    sim_id_dom : dom num (m_id m);
    sim_spec : c_spec c = seen (m_spec m);
    sim_red : m_reduction m = spec_red (m_spec m);
    sim_comp : m_composition m = spec_comp (m_spec m);
    sim_red_dom : forall r, m_reduction m = Some r -> dom num r;
    sim_comp_dom : forall l r, m_composition m = Some (l, r) -> dom num l /\ dom num r;
    sim_from_dom : forall u, from_mem m u = true -> dom num u;
    sim_from : forall u, dom num u -> from_mem m u = smem Nat.eqb (rho u) (reduces_from c);
    sim_hand_dom : h = true -> forall o hd v, m_find_as_hand m o hd = Some v -> dom num o /\ dom num v;
    sim_hand : h = true -> forall o hd, dom num o ->
               option_map rho (m_find_as_hand m o hd) = aget Nat.eqb (rho o) (hand_of c hd)
  }.

  Lemma aget_none_in {K V} eqb (spec : forall a b : K, reflect (a = b) (eqb a b)) k (m : list (K * V)) :
    (forall v, ~ In (k, v) m) -> aget eqb k m = None.
  Proof.
    intros H. destruct (aget eqb k m) as [v|] eqn:E; [|reflexivity].
    apply (aget_in _ spec) in E. destruct (H v E).
  Qed.

  (** More pending concepts: nothing changes for a concept that does not mention them. *)
  Lemma sim_more h num num' m c :
    num' >= num -> okc (fun k => k < n0 + num) c -> sim h num m c -> sim h num' m c.
  Proof.
    intros L OK S. destruct S.
    assert (M : forall a, dom num a -> dom num' a) by (intros a; apply dom_mono, L).
    assert (X : forall u, dom num' u -> dom num u \/ rho u >= n0 + num).
    { intros [n|u]; cbn; lia. }
    destruct OK as (O1 & O2 & O3 & O4 & O5).
    split; auto.
    - intros l r E. destruct (sim_comp_dom0 l r E). auto.
    - intros u Du. destruct (X u Du) as [D|G]; [auto|].
      destruct (from_mem m u) eqn:E.
      + apply sim_from_dom0 in E. pose proof (rho_lt _ _ _ E). lia.
      + symmetry. apply (smem_notin _ Nat.eqb_spec). intros I. apply O4 in I. lia.
    - intros Hh o hd v E. destruct (sim_hand_dom0 Hh o hd v E). auto.
    - intros Hh o hd Do. destruct (X o Do) as [D|G]; [auto|].
      destruct (m_find_as_hand m o hd) eqn:E.
      + destruct (sim_hand_dom0 Hh o hd _ E) as [D _]. pose proof (rho_lt _ _ _ D). lia.
      + cbn. symmetry. apply (aget_none_in _ Nat.eqb_spec). intros v I.
        destruct hd; cbn in I; [apply O2 in I|apply O3 in I]; lia.
  Qed.

  Definition hand_entry (cd : cdelta) : Prop :=
    match cd with
    | Indirect (INoLongerLefthandOf _) | Indirect (INoLongerRighthandOf _) => False
    | _ => True
    end.

  Lemma smem_sadd u v l : smem Nat.eqb u (sadd Nat.eqb v l) = Nat.eqb u v || smem Nat.eqb u l.
  Proof.
    destruct (smem Nat.eqb u (sadd Nat.eqb v l)) eqn:E; symmetry.
    - apply (smem_in _ Nat.eqb_spec) in E. apply (sadd_in _ Nat.eqb_spec) in E.
      destruct E as [->|E]; [rewrite Nat.eqb_refl; reflexivity|].
      apply (smem_in _ Nat.eqb_spec) in E. rewrite E. apply Bool.orb_true_r.
    - apply (smem_notin _ Nat.eqb_spec) in E. rewrite (sadd_in _ Nat.eqb_spec) in E.
      apply Bool.orb_false_iff. split.
      + apply Nat.eqb_neq. intros ->. auto.
      + apply (smem_notin _ Nat.eqb_spec). auto.
  Qed.
  Lemma smem_sdel {K} eqb (spec : forall a b : K, reflect (a = b) (eqb a b)) u v l :
    smem eqb u (sdel eqb v l) = negb (eqb u v) && smem eqb u l.
  Proof.
    destruct (smem eqb u (sdel eqb v l)) eqn:E; symmetry.
    - apply (smem_in _ spec) in E. apply (sdel_in _ spec) in E. destruct E as [N E].
      apply (smem_in _ spec) in E. rewrite E. destruct (spec u v); [contradiction|reflexivity].
    - apply (smem_notin _ spec) in E. rewrite (sdel_in _ spec) in E.
      destruct (spec u v) as [|N]; [reflexivity|]. cbn. apply (smem_notin _ spec). auto.
  Qed.

  Lemma dom_eqb num a b : dom num a -> dom num b -> cid_eqb a b = Nat.eqb (rho a) (rho b).
  Proof. apply rho_eqb. Qed.

  Definition same_but (m m' : mixed) : Prop :=
    m_id m' = m_id m /\ m_spec m' = m_spec m /\ m_reduction m' = m_reduction m /\
    m_composition m' = m_composition m.

  Lemma sim_with_from h num m m' c v (b : bool) :
    sim h num m c -> same_but m m' ->
    (forall o hd, m_find_as_hand m' o hd = m_find_as_hand m o hd) ->
    dom num v -> (forall u, from_mem m' u = if cid_eqb u v then b else from_mem m u) ->
    sim h num m' (set_from c (if b then sadd Nat.eqb (rho v) (reduces_from c)
                            else sdel Nat.eqb (rho v) (reduces_from c))).
  Proof.
    intros [S1 S2 S3 S4 S5 S6 S7 S8 S9 S10 S11] (E1 & E2 & E3 & E4) EH Dv EF.
    split; cbn [c_id c_spec set_from reduces_from]; rewrite ?E1, ?E2, ?E3, ?E4; auto.
    - intros u. rewrite EF. destruct (cid_eqb_spec u v) as [->|]; auto.
    - intros u Du. rewrite EF, (dom_eqb num u v Du Dv).
      destruct b; [rewrite smem_sadd|rewrite (smem_sdel _ Nat.eqb_spec)];
        destruct (Nat.eqb_spec (rho u) (rho v)); cbn; auto.
    - intros Hh o hd v0. rewrite EH. apply S10, Hh.
    - intros Hh o hd Do. rewrite EH. rewrite (S11 Hh o hd Do). destruct hd; reflexivity.
  Qed.

  Lemma sim_with_hand h num m m' c hd0 x r :
    sim h num m c -> same_but m m' ->
    (forall u, from_mem m' u = from_mem m u) -> dom num x -> dom num r ->
    (forall o hd, m_find_as_hand m' o hd =
       if andb (match hd, hd0 with HLeft, HLeft | HRight, HRight => true | _, _ => false end)
               (cid_eqb o r) then Some x else m_find_as_hand m o hd) ->
    sim h num m'
        (if h then match hd0 with
                   | HLeft => set_left c (aset Nat.eqb (rho r) (rho x) (lefthand_of c))
                   | HRight => set_right c (aset Nat.eqb (rho r) (rho x) (righthand_of c))
                   end
         else c).
  Proof.
    intros [S1 S2 S3 S4 S5 S6 S7 S8 S9 S10 S11] (E1 & E2 & E3 & E4) EF Dx Dr EH.
    destruct h.
    - split; try (destruct hd0; cbn; rewrite ?E1, ?E2, ?E3, ?E4; auto; fail);
        try (rewrite ?E1, ?E2, ?E3, ?E4; auto; fail).
      + intros u X. rewrite EF in X. auto.
      + intros u Du. rewrite EF. destruct hd0; exact (S9 u Du).
      + intros _ o hd v. rewrite EH.
        destruct (andb _ _) eqn:B; [|apply S10; reflexivity].
        intros [= <-]. apply andb_prop in B. destruct B as [_ B].
        destruct (cid_eqb_spec o r); [subst; auto|discriminate].
      + intros _ o hd Do. rewrite EH, (dom_eqb num o r Do Dr).
        specialize (S11 eq_refl o hd Do).
        destruct hd, hd0; cbn in *; rewrite ?(aget_aset _ Nat.eqb_spec);
          try destruct (Nat.eqb_spec (rho o) (rho r)); auto.
    - split; rewrite ?E1, ?E2, ?E3, ?E4; auto; try discriminate; intros u; rewrite EF; auto.
  Qed.

  Lemma sim_no_hands num m m' c :
    sim false num m c -> same_but m m' -> (forall u, from_mem m' u = from_mem m u) ->
    sim false num m' c.
  Proof.
    intros [S1 S2 S3 S4 S5 S6 S7 S8 S9 S10 S11] (E1 & E2 & E3 & E4) EF.
    split; rewrite ?E1, ?E2, ?E3, ?E4; auto; try discriminate; intros u; rewrite EF; auto.
  Qed.

  Lemma smem_sadd_cid u v l : smem cid_eqb u (sadd cid_eqb v l) = if cid_eqb u v then true else smem cid_eqb u l.
  Proof.
    destruct (smem cid_eqb u (sadd cid_eqb v l)) eqn:E; symmetry.
    - apply (smem_in _ cid_eqb_spec) in E. apply (sadd_in _ cid_eqb_spec) in E.
      destruct (cid_eqb_spec u v); [reflexivity|]. apply (smem_in _ cid_eqb_spec). tauto.
    - apply (smem_notin _ cid_eqb_spec) in E. rewrite (sadd_in _ cid_eqb_spec) in E.
      destruct (cid_eqb_spec u v); [tauto|]. apply (smem_notin _ cid_eqb_spec). tauto.
  Qed.

  Lemma get_set_left {I} (c : concept I) m :
    get_reduction (set_left c m) = get_reduction c /\ get_composition (set_left c m) = get_composition c.
  Proof. split; reflexivity. Qed.

  Ltac sinj :=
    repeat match goal with H : Some _ = Some _ |- _ => injection H; clear H; intros; subst end.

  (** One more entry read, one more step taken. *)
  Lemma sim_step h num k m m' c cd :
    sim h num m c -> read_step cfg k (Some m) cd = Ok (Some m') ->
    (forall nd, cd <> Direct (DNew nd)) ->
    Forall (dom num) (ids_of cd) ->
    (needs_abstract cd = true -> abstract c) ->
    (h = true -> hand_entry cd) ->
    sim h num m' (co_step h c cd) /\ m_id m' = m_id m.
  Proof.
    intros S R NN D NA HE. pose proof S as [S1 S2 S3 S4 S5 S6 S7 S8 S9 S10 S11].
    destruct cd as [[nd|cc ch|u ch|i]|i]; cbn in R.
    - destruct (NN nd eq_refl).
    - oinv.
    - (* a reduction *)
      oinv. destruct (NA eq_refl) as (kk & rr & Ea).
      assert (Da : forall r, Delta.after ch = Some r -> dom num r).
      { intros r Er. cbn in D. rewrite Er in D. inversion D; subst.
        rewrite Forall_forall in H2. apply H2, in_app_iff. right. left. reflexivity. }
      sinj.
      destruct m as [o chs comp red|cu]; cbn [m_change_reduction omap] in *.
      + oinv. subst. split; [|reflexivity]. cbn [m_reduction m_composition m_spec] in *.
        rewrite S3 in Ea. destruct (c_spec o) eqn:Eo; cbn [seen] in *; try discriminate Ea.
        cbn [Sim.co_step]. rewrite S3. cbn [seen].
        split; cbn [m_reduction m_composition m_spec m_id c_id set_spec c_spec reduces_from hand_of from_mem]; rewrite ?Eo; auto.
      + oinv. subst.
        cbn [m_spec] in *. rewrite S3 in Ea.
        destruct (c_spec cu) as [|kk' red'|] eqn:Eu; cbn [strip seen] in Ea; try discriminate Ea.
        unfold change_reduction in *. rewrite Eu in *.
        assert (X : forall c0, c0 = set_spec cu (Abstract kk' (Delta.after ch)) ->
          sim h num (MUnc c0) (co_step h c (Direct (DReduce u ch))) /\ m_id (MUnc c0) = m_id (MUnc cu)).
        { intros c0 ->. split; [|reflexivity]. cbn [Sim.co_step]. rewrite S3.
          destruct kk' as [l r fv bv|ch']; cbn [strip seen] in *;
            (split; cbn in *; unfold get_reduction, get_composition in *; rewrite ?Eu in *; cbn in *; auto). }
        destruct ch; oinv; subst; apply X; reflexivity.
    - oinv. discriminate.
    - oinv. sinj.
      destruct m as [o chs comp red|cu]; cbn [m_apply_indirect omap] in *; oinv; subst.
      + (* committed before *)
        destruct i as [x r|x l|r|l|v|v|l r]; cbn [ids_of] in D;
          repeat match goal with H : Forall _ (_ :: _) |- _ => inversion H; clear H; subst end;
          (split; [|reflexivity]); cbn [Sim.co_step].
        * refine (sim_with_hand h num _ _ c HLeft x r S _ _ _ _ _); try assumption;
            try (repeat split; fail); try reflexivity.
          intros oo [|]; cbn; rewrite ?(aget_aset _ cid_eqb_spec); [destruct (cid_eqb oo r)|]; reflexivity.
        * refine (sim_with_hand h num _ _ c HRight x l S _ _ _ _ _); try assumption;
            try (repeat split; fail); try reflexivity.
          intros oo [|]; cbn; rewrite ?(aget_aset _ cid_eqb_spec); [|destruct (cid_eqb oo l)]; reflexivity.
        * destruct h; [destruct (HE eq_refl)|].
          eapply sim_no_hands; [exact S|repeat split|reflexivity].
        * destruct h; [destruct (HE eq_refl)|].
          eapply sim_no_hands; [exact S|repeat split|reflexivity].
        * refine (sim_with_from h num _ _ c v true S _ _ _ _); try assumption;
            try (repeat split; fail).
          intros w; cbn. rewrite (aget_aset _ cid_eqb_spec). destruct (cid_eqb w v); reflexivity.
        * refine (sim_with_from h num _ _ c v false S _ _ _ _); try assumption;
            try (repeat split; fail).
          intros w; cbn. rewrite (aget_aset _ cid_eqb_spec). destruct (cid_eqb w v); reflexivity.
        * destruct (NA eq_refl) as (kk & rr & Ea). rewrite S3 in Ea. cbn [m_spec] in *.
          destruct (c_spec o) eqn:Eo; cbn [seen] in Ea; try discriminate Ea.
          rewrite S3. cbn [seen].
          split; cbn [m_reduction m_composition m_spec m_id c_id set_spec c_spec reduces_from hand_of from_mem seen];
            rewrite ?Eo; auto.
          intros l0 r0 [= <- <-]. auto.
      + destruct i as [x r|x l|r|l|v|v|l r]; cbn [ids_of] in D; cbn [apply_indirect] in *;
          repeat match goal with H : Forall _ (_ :: _) |- _ => inversion H; clear H; subst end.
        * oinv. subst. match goal with H : insert_into _ _ _ _ _ = Ok _ |- _ => apply insert_into_ok in H; subst end. split; [|reflexivity].
          refine (sim_with_hand h num _ _ c HLeft x r S _ _ _ _ _); try assumption;
            try (repeat split; fail); try reflexivity.
          intros oo [|]; cbn; rewrite ?(aget_aset _ cid_eqb_spec); [destruct (cid_eqb oo r)|]; reflexivity.
        * oinv. subst. match goal with H : insert_into _ _ _ _ _ = Ok _ |- _ => apply insert_into_ok in H; subst end. split; [|reflexivity].
          refine (sim_with_hand h num _ _ c HRight x l S _ _ _ _ _); try assumption;
            try (repeat split; fail); try reflexivity.
          intros oo [|]; cbn; rewrite ?(aget_aset _ cid_eqb_spec); [|destruct (cid_eqb oo l)]; reflexivity.
        * oinv. subst. split; [|reflexivity]. destruct h; [destruct (HE eq_refl)|].
          eapply sim_no_hands; [exact S|repeat split|reflexivity].
        * oinv. subst. split; [|reflexivity]. destruct h; [destruct (HE eq_refl)|].
          eapply sim_no_hands; [exact S|repeat split|reflexivity].
        * oinv. subst. split; [|reflexivity].
          refine (sim_with_from h num _ _ c v true S _ _ _ _); try assumption;
            try (repeat split; fail).
          intros w; cbn. apply smem_sadd_cid.
        * oinv. subst. split; [|reflexivity].
          refine (sim_with_from h num _ _ c v false S _ _ _ _); try assumption;
            try (repeat split; fail).
          intros w; cbn [from_mem reduces_from set_from]. rewrite (smem_sdel _ cid_eqb_spec). destruct (cid_eqb w v); reflexivity.
        * destruct (c_spec cu) as [|kk' red'|] eqn:Eu; oinv. subst. split; [|reflexivity].
          cbn [Sim.co_step]. rewrite S3. cbn [m_spec] in *. rewrite Eu in *.
          assert (X : exists kk2, seen (strip (Abstract kk' red')) = Abstract kk2 (option_map rho red')).
          { destruct kk'; eexists; reflexivity. }
          destruct X as (kk2 & ->).
          split; cbn in *; unfold get_reduction, get_composition in *; rewrite ?Eu in *; auto.
          intros l0 r0 [= <- <-]. auto.
  Qed.

  (** ** Sequences of entries *)
  Lemma read_steps_app k mo a b :
    read_steps cfg k mo (a ++ b) = obind (read_steps cfg k mo a) (fun m => read_steps cfg k m b).
  Proof.
    revert mo. induction a as [|cd a IH]; intros mo; [reflexivity|]. cbn [app read_steps].
    destruct (read_step cfg k mo cd); cbn; auto.
  Qed.

  Lemma co_step_abstract h c cd : abstract c -> abstract (co_step h c cd).
  Proof.
    intros (k & red & E). unfold abstract, Sim.co_step.
    destruct cd as [[]|[]]; cbn; rewrite ?E; try (destruct h; cbn; rewrite ?E); eauto.
  Qed.

  Lemma sim_steps h num k cds : forall m m' c,
    sim h num m c -> read_steps cfg k (Some m) cds = Ok (Some m') ->
    (forall cd, In cd cds ->
       (forall nd, cd <> Direct (DNew nd)) /\ (forall i, cd <> Direct (DRemove i)) /\
       Forall (dom num) (ids_of cd) /\ (needs_abstract cd = true -> abstract c) /\
       (h = true -> hand_entry cd)) ->
    sim h num m' (fold_left (co_step h) cds c).
  Proof.
    induction cds as [|cd cds IH]; intros m m' c S R H.
    - injection R as <-. exact S.
    - cbn [read_steps] in R. apply obind_ok in R. destruct R as (mo & R1 & R2).
      destruct (H cd (or_introl eq_refl)) as (H1 & H2 & H3 & H4 & H5).
      assert (X : exists m1, mo = Some m1).
      { destruct cd as [[nd|cc ch|u ch|i]|i]; cbn in R1; oinv; subst; eauto.
        destruct (H2 i eq_refl). }
      destruct X as (m1 & ->).
      destruct (sim_step h num k m m1 c cd S R1 H1 H3 H4 H5) as [S' _].
      cbn [fold_left]. apply (IH m1 m' _ S' R2).
      intros cd' I. destruct (H cd' (or_intror I)) as (G1 & G2 & G3 & G4 & G5).
      repeat (split; [assumption|]). split; [|assumption].
      intros E. apply co_step_abstract, G4, E.
  Qed.

  Lemma read_some k mo cds m' :
    read_steps cfg k mo cds = Ok (Some m') ->
    (forall cd, In cd cds -> (forall nd, cd <> Direct (DNew nd)) /\ (forall i, cd <> Direct (DRemove i))) ->
    exists m, mo = Some m.
  Proof.
    destruct cds as [|cd cds]; [intros [= ->]; eauto|]. intros R H.
    cbn [read_steps] in R. apply obind_ok in R. destruct R as (m1 & R1 & _).
    destruct mo as [m|]; [eauto|]. destruct (H cd (or_introl eq_refl)) as [H1 H2].
    destruct cd as [[nd|cc ch|u ch|i]|i]; cbn in R1; oinv; try discriminate.
    - destruct (H1 _ eq_refl).
    - destruct (H2 _ eq_refl).
  Qed.

  (** ** The pending changes and the store they have produced so far *)
  Record linked (h : bool) (d : delta) (s : snapshot) : Prop := Linked {
    lk_layers : layers d = [overlay d];
    lk_size : size s = n0 + d_num (overlay d);
    lk_prev : forall u, aget Nat.eqb u (prev_unc s) =
                        if Nat.ltb u (d_num (overlay d)) then Some (n0 + u) else None;
    lk_sane : sane s;
    lk_entries : forall k, entries (overlay d) k <> [] -> dom (d_num (overlay d)) k;
    lk_noremove : forall k i, ~ In (Direct (DRemove i)) (entries (overlay d) k);
    lk_sim : forall k m, dom (d_num (overlay d)) k ->
      read_steps cfg k (get_concept snap k) (entries (overlay d) k) = Ok (Some m) ->
      exists c, lookup s (rho k) = Some c /\ sim h (d_num (overlay d)) m (stripc h c)
  }.

  Lemma sim_base h n c :
    sane snap -> lookup snap n = Some c -> sim h 0 (mixed_of_committed c) (stripc h c).
  Proof.
    intros S L. pose proof (proj1 (sane_ids snap S) n c L) as (O1 & O2 & O3 & O4 & O5).
    split; cbn [m_id m_reduction m_composition m_spec mixed_of_committed stripc c_id c_spec
                from_mem ch_from aget reduces_from].
    - reflexivity.
    - exact O1.
    - unfold get_composition, get_reduction. destruct (c_spec c) as [|[] red|]; cbn; try reflexivity;
        destruct red; reflexivity.
    - unfold get_reduction. destruct (c_spec c) as [|[] red|]; reflexivity.
    - unfold get_composition. destruct (c_spec c) as [|[] red|]; reflexivity.
    - intros r E. unfold get_reduction in E. unfold okspec in O5.
      destruct (c_spec c) as [|[] [red|]|]; try discriminate E; injection E as <-; cbn; intuition.
    - intros l r E. unfold get_composition in E. unfold okspec in O5.
      destruct (c_spec c) as [|[] [red|]|]; try discriminate E; injection E as <- <-; cbn; intuition.
    - intros [k|u] E; [|discriminate]. apply (smem_in _ Nat.eqb_spec) in E. apply O4, E.
    - intros [k|u] E; [reflexivity|]. cbn in E. lia.
    - intros -> [o|o] hd v E; [|destruct hd; discriminate E]. cbn in *.
      unfold find_as_hand in E.
      assert (X : exists w, v = Committed w /\ In (o, w) (hand_of c hd)).
      { destruct hd; cbn in E |- *; destruct (aget Nat.eqb o _) as [w|] eqn:A; try discriminate;
          injection E as <-; apply (aget_in _ Nat.eqb_spec) in A; eauto. }
      destruct X as (w & -> & I). destruct hd; cbn in I; [apply O2 in I|apply O3 in I]; exact I.
    - intros -> [o|o] hd E; [|cbn in E; lia]. cbn. unfold find_as_hand.
      destruct hd; cbn; destruct (aget Nat.eqb o _); reflexivity.
  Qed.

  Lemma linked_base h : sane snap -> prev_unc snap = [] -> linked h delta_default snap.
  Proof.
    intros S E. split; cbn; auto.
    - intros u. rewrite E. reflexivity.
    - intros k C. destruct (C eq_refl).
    - intros [n|u] m D R; cbn in D; [|lia]. injection R as R.
      destruct (nth_error (concepts snap) n) as [c|] eqn:L; [|discriminate].
      injection R as <-. exists c. split; [exact L|]. apply (sim_base h n c S L).
  Qed.

  Lemma sim_new h num nd c2 :
    let c := concept_of_new (Uncommitted num) nd in
    c_id c2 = n0 + num -> reduces_from c2 = [] ->
    strip (c_spec c2) =
      match c_spec c with
      | Concrete cc => Concrete cc
      | StringPart t => StringPart t
      | Abstract k red =>
        Abstract (match k with Comp l r _ _ => Comp (rho l) (rho r) [] [] | Leaf ch => Leaf ch end)
                 (option_map rho red)
      end ->
    lefthand_of c2 = map (fun p => (rho (fst p), rho (snd p))) (lefthand_of c) ->
    righthand_of c2 = map (fun p => (rho (fst p), rho (snd p))) (righthand_of c) ->
    Forall (dom num) match nd with
                     | NComposition l r => [l; r]
                     | NLefthand a b _ | NRighthand a b _ => [a; b]
                     | NDouble a _ | NReducesTo a => [a]
                     | _ => []
                     end ->
    sim h (S num) (MUnc c) (stripc h c2).
  Proof.
    cbn zeta. intros E1 E2 E3 E4 E5 F.
    assert (DM : forall j, dom num j -> dom (S num) j) by (intros j; apply dom_mono; lia).
    assert (DN : dom (S num) (Uncommitted num)) by (cbn; lia).
    assert (EQ : forall a b, dom (S num) a -> dom (S num) b -> Nat.eqb (rho a) (rho b) = cid_eqb a b)
      by (intros; symmetry; apply (dom_eqb (S num)); auto).
    assert (H1 : n0 + num = rho (Uncommitted num)) by reflexivity.
    rewrite H1 in *. clear H1.
    split; cbn [m_id m_reduction m_composition m_spec stripc c_id c_spec reduces_from hand_of].
    - rewrite E1. destruct nd; reflexivity.
    - destruct nd; exact DN.
    - rewrite E3. destruct nd; cbn; try reflexivity; match goal with c : option cct |- _ => destruct c end; reflexivity.
    - destruct nd; try reflexivity; match goal with c : option cct |- _ => destruct c end; reflexivity.
    - destruct nd; try reflexivity; match goal with c : option cct |- _ => destruct c end; reflexivity.
    - intros r E. destruct nd; cbn in E; try discriminate E; try (match goal with c : option cct |- _ => destruct c end; discriminate E).
      injection E as <-. inversion F; auto.
    - intros l r E. destruct nd; cbn in E; try discriminate E; try (match goal with c : option cct |- _ => destruct c end; discriminate E).
      injection E as <- <-. inversion F; subst. inversion H2; subst. auto.
    - intros u E. destruct nd; discriminate E.
    - intros u _. rewrite E2. destruct nd; reflexivity.
    - intros -> o hd v E. cbn in E. unfold find_as_hand in E.
      assert (X : In (o, v) (hand_of (concept_of_new (Uncommitted num) nd) hd))
        by (apply (aget_in _ cid_eqb_spec), E).
      destruct nd, hd; cbn in X; try (destruct X; fail); destruct X as [X|[]]; injection X as <- <-;
        repeat match goal with H : Forall _ (_ :: _) |- _ => inversion H; clear H; subst end; auto.
    - intros -> o hd Do. cbn [m_find_as_hand]. unfold find_as_hand.
      destruct hd; cbn [hand_of lefthand_of righthand_of stripc]; rewrite ?E4, ?E5; destruct nd; cbn [concept_of_new lefthand_of righthand_of plain make_free_variable make_bound_variable map fst snd aget];
        repeat match goal with H : Forall _ (_ :: _) |- _ => inversion H; clear H; subst end;
        try reflexivity; rewrite EQ by auto; destruct (cid_eqb o _); reflexivity.
  Qed.

  Lemma touching_in k cd ts : In cd (touching k ts) -> In (k, cd) ts.
  Proof.
    unfold touching. intros I. apply in_map_iff in I. destruct I as ([k' cd'] & E & I). cbn in E. subst.
    apply filter_In in I. destruct I as [I E]. cbn in E. destruct (cid_eqb_spec k k'); [subst; exact I|discriminate].
  Qed.

  Lemma okc_stripc h (Q : nat -> Prop) c : okc Q c -> okc Q (stripc h c).
  Proof.
    intros (A & B & C & D & E). split; [exact A|]. split; [|split; [|split]]; cbn.
    - destruct h; [exact B|intros ? ? []].
    - destruct h; [exact C|intros ? ? []].
    - exact D.
    - unfold okspec in *. destruct (c_spec c) as [|[] red|]; cbn; auto.
  Qed.
  Lemma cid_refl a : cid_eqb a a = true.
  Proof. destruct (cid_eqb_spec a a); [reflexivity|contradiction]. Qed.

  Lemma linked_step h d1 s1 x id d2 s2 :
    linked h d1 s1 -> good_direct (below n0) x -> (h = true -> keeps_hands x) ->
    delta_update x d1 = Ok (id, d2) -> apply_direct (dbg cfg) id x s1 = Ok s2 ->
    linked h d2 s2.
  Proof.
    intros LK G KH U A. pose proof LK as [K1 K2 K3 K4 K5 K6 K7].
    destruct d1 as [l1 i1]. cbn in K1. injection K1 as ->. cbn [overlay] in *.
    cbn in U. oinv. subst. rename l into l2.
    match goal with H : update_layer x l1 = _ |- _ => apply update_layer_spec in H;
      destruct H as (U1 & U2 & U3 & U4 & U5 & U6) end.
    set (num := d_num l1) in *.
    assert (ID : id = the_id num x) by (rewrite U1; destruct x; reflexivity).
    assert (GS : good_direct (below (size s1)) x).
    { eapply good_direct_mono; [|exact G]. intros j. apply below_mono. lia. }
    destruct (sane_step _ _ _ _ _ K4 GS A) as [SA _].
    apply apply_direct_effect in A; [|apply K4]. destruct A as ((F1 & F2 & F3) & us & E & O).
    pose proof (size_base _ _ _ _ O) as SZ.
    rewrite ID in *.
    pose proof (effect_touches snap (dbg cfg) s1 num K2 K3 x us E G) as TO.
    assert (NU : new_num l1 x = match x with DNew _ => S num | _ => num end) by (destruct x; reflexivity).
    assert (LE : new_num l1 x >= num) by (rewrite NU; destruct x; lia).
    split; cbn [overlay layers d_num]; rewrite ?U2.
    - reflexivity.
    - rewrite SZ, K2, NU. destruct x; lia.
    - intros u. rewrite F3, NU. destruct x as [nd| | |]; auto. cbn [the_id].
      rewrite (aget_aset _ Nat.eqb_spec), K3.
      destruct (Nat.eqb_spec u num) as [->|N].
      + replace (Nat.ltb num (S num)) with true by (symmetry; apply Nat.ltb_lt; lia).
        f_equal. exact K2.
      + destruct (Nat.ltb_spec u num), (Nat.ltb_spec u (S num)); try reflexivity; lia.
    - exact SA.
    - intros k. rewrite U6. intros NE.
      destruct (entries l1 k) as [|e es] eqn:EE.
      + cbn in NE. destruct (touching k (touches (the_id num x) x)) as [|cd cds] eqn:ET; [destruct (NE eq_refl)|].
        assert (I : In (k, cd) (touches (the_id num x) x)) by (apply touching_in; rewrite ET; left; reflexivity).
        destruct (TO k cd I) as [(-> & nd & -> & _)|(D & _)].
        * rewrite NU. cbn. lia.
        * eapply dom_mono; [exact LE|exact D].
      + eapply dom_mono; [exact LE|]. apply K5. rewrite EE. discriminate.
    - intros k i. rewrite U6, in_app_iff. intros [I|I]; [exact (K6 k i I)|].
      apply touching_in in I. destruct (TO _ _ I) as [(_ & nd & -> & Q)|(_ & _ & _ & Q & _)].
      + discriminate Q.
      + exact (Q i eq_refl).
    - intros k m D R. rewrite U6, read_steps_app in R.
      apply obind_ok in R. destruct R as (mo & R1 & R2).
      assert (C : dom num k \/ (k = Uncommitted num /\ exists nd, x = DNew nd)).
      { rewrite NU in D. destruct x; auto. destruct k as [n|u]; cbn in *; [auto|].
        destruct (Nat.eq_dec u num); [right; subst; eauto|left; lia]. }
      destruct C as [Dk|(-> & nd & ->)].
      + assert (NT : forall cd, In cd (touching k (touches (the_id num x) x)) ->
          dom num k /\ Forall (dom (match x with DNew _ => S num | _ => num end)) (ids_of cd) /\
         (forall nd, cd <> Direct (DNew nd)) /\ (forall i, cd <> Direct (DRemove i)) /\
         (needs_abstract cd = true -> forall c, lookup s1 (rho k) = Some c -> abstract c) /\
         (keeps_hands x -> hand_entry cd)).
        { intros cd I. apply touching_in in I. destruct (TO _ _ I) as [(-> & _)|Q]; [cbn in Dk; lia|exact Q]. }
        destruct (read_some k mo _ m R2) as (m1 & ->). { intros cd I. split; apply (NT cd I). }
        destruct (K7 k m1 Dk R1) as (c1 & L1 & S1).
        destruct (effect_old snap (dbg cfg) s1 num K2 K3 h x us s2 k c1 E O G KH Dk L1) as (c2 & L2 & Q).
        exists c2. split; [exact L2|]. rewrite Q.
        eapply sim_steps; [|exact R2|].
        * eapply sim_more; [exact LE| |exact S1].
          pose proof (proj1 (sane_ids s1 K4) _ _ L1) as OKC. rewrite <- K2.
          apply okc_stripc, OKC.
        * intros cd I. destruct (NT cd I) as (_ & N1 & N2 & N3 & N4 & N5).
          split; [exact N2|]. split; [exact N3|]. split; [rewrite NU; exact N1|]. split.
          -- intros NA. specialize (N4 NA c1 L1). destruct N4 as (kk & red & Ec).
             unfold abstract. cbn. rewrite Ec. destruct kk; cbn; eauto.
          -- intros Hh. apply N5, KH, Hh.
      + cbn [the_id] in *.
        destruct (effect_new snap (dbg cfg) s1 num K2 K3 nd us s2 E O G) as (c2 & L2 & Q1 & Q2 & Q3 & Q4 & Q5 & Q6).
        exists c2. split; [exact L2|]. rewrite NU.
        assert (EN : entries l1 (Uncommitted num) = []).
        { destruct (entries l1 (Uncommitted num)) eqn:EE; [reflexivity|].
          assert (X : dom num (Uncommitted num)) by (apply K5; rewrite EE; discriminate). cbn in X. lia. }
        rewrite EN in R1. injection R1 as <-.
        assert (ET : touching (Uncommitted num) (touches (Uncommitted num) (DNew nd)) = [Direct (DNew nd)]).
        { assert (NK : forall j, dom num j -> cid_eqb (Uncommitted num) j = false).
          { intros j Dj. destruct (cid_eqb_spec (Uncommitted num) j); [subst; cbn in Dj; lia|reflexivity]. }
          unfold touching. destruct nd; cbn [touches filter fst]; rewrite cid_refl; cbn [map snd];
            repeat match goal with H : Forall _ (_ :: _) |- _ => inversion H; clear H; subst end;
            rewrite ?NK by assumption; reflexivity. }
        rewrite ET in R2. cbn in R2. oinv. subst. sinj.
        apply sim_new; assumption.
  Qed.
End Sim.
