(** The command `let n := l r`, from its text to the store. *)
From Verif Require Import Snapshot Search Context StoreSpec NameSpec FrameSpec MapFacts AstFacts StoreFacts StoreInv
  RangeFacts History Sim SimRead Steps Keep Quiet SearchPlain Frames Reductions Declare.
From Coq Require Import String List Relations PeanoNat Lia Bool.
Import ListNotations.
Local Open Scope zia_scope.

(** [command] is read as `let (n (:= old))`, with the built-in `let` and `:=`. *)
Definition reads_as_definition (cfg : config) (fuel : nat) (c : ctx) (command : text) (n old : tree) : Prop :=
  exists t c1 tl ta p ar nl na,
    read_tree cfg fuel command c = Ok (Val t, c1) /\
    t_concept t = None /\ t_exp t = Some (tl, ta) /\ t_exp ta = Some (n, p) /\ t_exp p = Some (ar, old) /\
    t_concept tl = Some (Committed nl) /\ built_in (c_snap c) nl CLet /\
    t_concept ar = Some (Committed na) /\ built_in (c_snap c) na CDefine.

Section Changes.
  Variable cfg : config.
  Variable fuel : nat.

  (** What a definition of a symbol that has a concept records: how its parts are found or
      made, and then the composition. *)
  Definition defines (i : cid) (l r : tree) (c c' : ctx) : Prop :=
    exists c4 c5 xl xr m x,
      concept_from_ast cfg fuel l c = Ok (Val xl, c4) /\ concept_from_ast cfg fuel r c4 = Ok (Val xr, c5) /\
      read_concept cfg (c_snap c5) (c_delta c5) i = Ok m /\ compose_delta cfg m xl xr = Ok x /\
      pending c' = pending c5 ++ [(m_id m, x)].

  Lemma redefine_changes i l r c z c' :
    spaced l -> spaced r -> redefine cfg fuel i l r c = Ok (z, c') ->
    match z with Val _ => defines i l r c c' | Fail _ => builds c c' end.
  Proof.
    intros Sl Sr E. unfold redefine in E.
    apply bind_back in E. destruct E as (xl & c4 & E4 & E). pose proof E4 as K4.
    apply (logs_concept cfg fuel l Sl) in E4. destruct E4 as (_ & l4 & P4 & F4).
    destruct xl as [xl|]; [|destruct E as [-> ->]; exists l4; auto].
    apply bind_back in E. destruct E as (xr & c5 & E5 & E). pose proof E5 as K5.
    apply (logs_concept cfg fuel r Sr) in E5. destruct E5 as (_ & l5 & P5 & F5).
    assert (B : builds c c5).
    { exists (l4 ++ l5). rewrite P5, P4, app_assoc, Forall_app. auto. }
    destruct xr as [xr|]; [|destruct E as [-> ->]; exact B].
    unfold insert_composition in E.
    apply bind_back in E. destruct E as (b & c6 & E6 & E).
    assert (c6 = c5).
    { apply bind_back in E6. destruct E6 as (bl & c7 & E7 & E6). apply lift_back in E7. destruct E7 as [-> _].
      destruct bl as [[]|]; [injection E6 as _ <-; reflexivity| |destruct E6 as [_ ->]; reflexivity].
      apply lift_back in E6. apply E6. }
    subst c6. destruct b as [[]|]; [injection E as <- <-; exact B| |destruct E as [-> ->]; exact B].
    apply bind_back in E. destruct E as (u & c6 & E7 & E). apply lift_back in E7. destruct E7 as [-> _].
    destruct u as [u|]; [|destruct E as [-> ->]; exact B].
    apply bind_back in E. destruct E as (v & c6 & E7 & E). apply lift_back in E7. destruct E7 as [-> _].
    destruct v as [v|]; [|destruct E as [-> ->]; exact B].
    apply bind_back in E. destruct E as (m & c6 & E7 & E). unfold c_read in E7. apply lift_back in E7. destruct E7 as [-> E7].
    destruct m as [m|]; [|destruct E as [-> ->]; exact B].
    apply bind_back in E. destruct E as (x & c6 & E8 & E). apply lift_back in E8. destruct E8 as [-> E8].
    destruct x as [x|]; [|destruct E as [-> ->]; exact B].
    apply bind_back in E. destruct E as (w & c9 & E9 & E). apply update_pending in E9.
    destruct E9 as (id & -> & _ & P9 & _ & ID). injection E as <- <-.
    destruct (compose_delta_shape _ _ _ _ _ E8) as (ch & ->). subst id.
    exists c4, c5, xl, xr, m, (DCompose (m_id m) ch). auto.
  Qed.

  Lemma execute_composition_changes n old i l r c z c' :
    t_exp n = None -> t_concept n = Some i -> t_exp old = Some (l, r) -> spaced l -> spaced r ->
    execute_composition cfg fuel n old c = Ok (z, c') ->
    match z with Val _ => t_concept old = None /\ defines i l r c c' | Fail _ => builds c c' end.
  Proof.
    intros N1 N2 O Sl Sr E. unfold execute_composition in E.
    destruct (t_contains old n); [injection E as <- <-; apply builds_same; reflexivity|].
    unfold define in E. rewrite N1, N2, O in E.
    destruct (t_concept old) as [b|]; [injection E as <- <-; apply builds_same; reflexivity|].
    apply bind_back in E. destruct E as (u & c3 & E3 & E). unfold need_delta in E3.
    destruct (pinned c); injection E3 as <- <-; [destruct E as [-> ->]; apply builds_same; reflexivity|].
    apply (redefine_changes i l r c z c' Sl Sr) in E. destruct z; auto.
  Qed.
  Lemma tame_execute_composition n old i l r :
    t_exp n = None -> t_concept n = Some i -> t_exp old = Some (l, r) -> tame (execute_composition cfg fuel n old).
  Proof.
    intros N1 N2 O. unfold execute_composition.
    destruct (t_contains old n); [apply tame_fail; split; discriminate|].
    unfold define. rewrite N1, N2, O. destruct (t_concept old) as [b|].
    - apply tame_fail. destruct (cid_eqb i b); split; discriminate.
    - apply tame_bind; [apply tame_need|]. intros _. apply tame_redefine.
  Qed.

  Lemma call_defines t tl ta a p ar b nl na i l r0 c r c' :
    t_concept t = None -> t_exp t = Some (tl, ta) -> t_exp ta = Some (a, p) -> t_exp p = Some (ar, b) ->
    t_concept tl = Some nl -> t_concept ar = Some na -> only_type cfg c nl CLet -> only_type cfg c na CDefine ->
    t_exp a = None -> t_concept a = Some i -> t_exp b = Some (l, r0) ->
    call cfg fuel t c = Ok (r, c') ->
    (exists e, r = Fail e /\ (c_delta c' = c_delta c \/ execute_composition cfg fuel a b c = Ok (Fail e, c'))) \/
    (execute_composition cfg fuel a b c = Ok (Val tt, c') /\ r = Val []).
  Proof.
    intros T1 T2 T3 T4 T5 T6 H1 H2 A1 A2 A3 E.
    destruct (call_by_pair cfg fuel t tl ta c r c' T1 T2 E) as (n & x & c1 & P & K). clear E.
    assert (X : x <> Fail CannotReduceFurther /\
      ((exists e, x = Fail e /\ (c_delta c1 = c_delta c \/ execute_composition cfg fuel a b c = Ok (Fail e, c1))) \/
       (execute_composition cfg fuel a b c = Ok (Val tt, c1) /\ x = Val []))).
    { clear K r c'. destruct n as [|n]; [discriminate|]. cbn [calls snd] in P. unfold call_pair_step in P.
      apply bind_back in P. destruct P as (ty & c2 & E1 & P).
      apply (type_of_back cfg tl nl CLet) in E1; [|exact T5|exact H1].
      destruct E1 as [-> [->|(e & -> & TE)]].
      2:{ destruct P as [-> ->]. split; [destruct TE; congruence|left; eauto 6]. }
      apply bind_back in P. destruct P as (dn & c2 & E2 & P).
      apply bind_back in E2. destruct E2 as (y & c3 & E2 & E3).
      unfold call_let in E2. rewrite T3, T4 in E2.
      apply bind_back in E2. destruct E2 as (at_ & c4 & E2 & E4).
      apply bind_back in E2. destruct E2 as (z & c5 & E2 & E5).
      apply catch_back in E2. destruct E2 as (w & -> & E2). injection E5 as <- <-.
      assert (W : (exists e, w = Fail e /\ tame_error e /\
          (c_delta c5 = c_delta c \/ execute_composition cfg fuel a b c = Ok (Fail e, c5))) \/
        (execute_composition cfg fuel a b c = Ok (Val tt, c5) /\ w = Val tt)).
      { revert E2. generalize fuel at 2. intros [|k] E2; [discriminate|]. cbn [match_righthand_pair] in E2. rewrite T6 in E2.
        apply bind_back in E2. destruct E2 as (ty & c6 & E6 & E2). apply type_back in E6. destruct E6 as [-> E6].
        destruct ty as [ty|e]; [|destruct E2 as [-> ->]; left; eauto].
        apply H2 in E6. subst ty.
        destruct w as [[]|e]; [right; auto|]. left. exists e. split; [reflexivity|]. split; [|auto].
        apply (tame_execute_composition a b i l r0 A1 A2 A3) in E2. apply E2. }
      destruct W as [(e & -> & TE & W)|(W & ->)].
      - assert (R : x = Fail e /\ c1 = c5).
        { destruct e; try (exfalso; destruct TE; congruence);
            injection E4 as <- <-; injection E3 as <- <-; injection P as <- <-; auto. }
        destruct R as [-> ->]. split; [destruct TE; congruence|left; eauto].
      - injection E4 as <- <-. injection E3 as <- <-. injection P as <- <-.
        split; [discriminate|]. right. auto. }
    destruct X as [X1 X2]. destruct (K X1) as [-> ->]. exact X2.
  Qed.

  (** The last change, if it sets a composition. *)
  Lemma last_composes snap d s k ch a b l :
    sane snap -> prev_unc snap = [] ->
    steps cfg (below (size snap)) snap fuel delta_default d ->
    apply_directs (dbg cfg) (d_order (overlay d)) snap = Ok s ->
    d_order (overlay d) = l ++ [(k, DCompose k ch)] -> Delta.after ch = Some (a, b) ->
    comp_at s (rho snap k) = Some (rho snap a, rho snap b).
  Proof.
    intros S P ST A EO AF.
    destruct (last_step cfg snap fuel d s k (DCompose k ch) S P ST A ltac:(exists l; exact EO))
      as (d0 & s0 & LK & G & LG & U & AD).
    pose proof (lk_prev _ _ _ _ _ LK) as PV.
    assert (CR : forall j n, below (size snap) j -> to_committed s0 j = Ok n -> n = rho snap j).
    { intros j n B T. apply (com_rho snap s0 _ PV j n B T). }
    destruct (step_comp _ _ _ _ _ (lk_sane _ _ _ _ _ LK) (good_now _ _ _ _ _ _ LK G) AD)
      as [(_ & _ & H)|(nc & x & y & CC & K & _)].
    - intros c x y. eapply legit_no_remove; eauto.
    - exfalso. apply apply_direct_effect in AD; [|exact (sane_numbers s0 (lk_sane _ _ _ _ _ LK))].
      destruct AD as (_ & us & EF & _). inversion EF; subst; cbn in AF; try discriminate AF; injection AF as <- <-;
        ((eapply H, CcCompose; [| | | |reflexivity]);
          [eassumption|eassumption|eassumption|first [eassumption|eapply nodup_five; eassumption]]).
    - inversion CC as [| | | |c0 ch0 a0 b0 n0 n1 n2 Tc Ta Tb ND CA]; subst. rewrite AF in CA. injection CA as <- <-.
      assert (GX : below (size snap) k /\ below (size snap) a /\ below (size snap) b).
      { destruct ch as [[p q]|[p q] [p' q']|[p q]]; cbn in AF; try discriminate AF; injection AF as -> ->; cbn in G;
        repeat match goal with
        | H : _ /\ _ |- _ => destruct H
        | H : good (_, _) |- _ => destruct H; cbn [fst snd] in *
        end; auto. }
      destruct GX as (G1 & G2 & G3). rewrite K, (CR _ _ G1 Tc), (CR _ _ G2 Ta), (CR _ _ G3 Tb), Nat.eqb_refl. reflexivity.
  Qed.
End Changes.

(** The names of a concept, if its label compositions stay as they are. *)
Lemma label_same_at s s' n :
  sane s -> extends s s' -> n < size s ->
  (forall x lab, x < size s -> built_in s' lab CLabel -> composed s x lab n \/ composed s' x lab n ->
     same_composition s s' x) ->
  (forall x l r, le (size s) x -> composed s' x l n -> built_in s' l CLabel -> ~ reduces s' x r) ->
  (forall x, x < size s -> same_reduction s s' x) ->
  same_label s s' n.
Proof.
  intros S EX Ln HC HN HR t. split; intros (lab & comp & str & B & C & R & T).
  - destruct (composed_range s S _ _ _ C) as (L1 & L2 & _).
    exists lab, comp, str. pose proof (proj1 (built_in_known s s' EX lab CLabel L2) B) as B'.
    split; [exact B'|]. split; [apply (HC comp lab L1 B'); auto|].
    split; [|apply EX, T]. apply (chain_forth s s' S); [|exact R]. intros x _ Lx. apply HR, Lx.
  - assert (L1 : comp < size s).
    { destruct (Nat.lt_ge_cases comp (size s)) as [L|L]; [exact L|].
      assert (H : exists r, reduces s' comp r).
      { clear - R. induction R; eauto. }
      destruct H as [r H]. destruct (HN comp lab r L C B H). }
    pose proof C as C'. apply (HC comp lab L1 B (or_intror C)) in C. destruct (composed_range s S _ _ _ C) as (_ & L2 & _).
    apply (built_in_known s s' EX _ _ L2) in B.
    destruct (chain_back s s' S comp str L1 (fun x _ Lx => HR x Lx) R) as [R' L3].
    apply (text_known s s' EX _ _ L3) in T. exists lab, comp, str. auto.
Qed.

Lemma one_composition snap d s s' x :
  sane snap -> extends snap s' -> frame snap d s -> concepts s' = concepts s ->
  (forall id y, In (id, y) (d_order (overlay d)) ->
     building y \/ exists k ch, y = DCompose k ch /\ rho snap k = x) ->
  only_composition_of x snap s'.
Proof.
  intros S EX FR CC H n L.
  assert (R : forall i, ~ reduces_one snap (d_order (overlay d)) i).
  { intros i (id & k & ch & I & E). apply H in I.
    destruct I as [[I|(l & r & I)]|(k' & ch' & I & T)]; [exact I|discriminate I|discriminate I]. }
  assert (K : forall i, composes_one snap (d_order (overlay d)) i -> i = x).
  { intros i (id & k & ch & I & E). apply H in I.
    destruct I as [[I|(l & r & I)]|(k' & ch' & I & T)]; [destruct I|discriminate I|].
    injection I as <- <-. congruence. }
  pose proof (fun i Li => frame_same_reduction _ _ _ _ i FR CC Li (R i)) as SR.
  assert (SC : forall i, i < size snap -> i <> x -> same_composition snap s' i).
  { intros i Li Ni. apply (frame_same_composition _ _ _ _ i FR CC Li). intros Ki. exact (Ni (K i Ki)). }
  pose proof (extends_text _ _ _ EX L) as T. apply known_lt in L.
  split; [auto|]. split; [auto|]. split; [exact T|]. intros NL.
  apply (label_same_at _ _ n S EX L); [| |exact SR].
  - intros i lab Li B D. apply (SC i Li). intros ->. destruct (NL lab B). tauto.
  - intros i l r Li Cx Bx Rx. pose proof Cx as Cx'. apply composed_at in Cx'.
    unfold comp_at in Cx'. rewrite (same_concepts_at _ _ CC) in Cx'.
    destruct (proj2 (proj2 (proj2 FR)) i l n Li Cx' L) as [E|[E|E]].
    + apply reduces_at in Rx. unfold red_at in Rx. rewrite (same_concepts_at _ _ CC) in Rx.
      unfold red_at in E. congruence.
    + exact (R i E).
    + apply K in E. subst i. destruct (NL l Bx). tauto.
Qed.

Section Results.
  Variable cfg : config.
  Variable fuel : nat.

  Theorem defined command c answer c' n old i l r :
    fair cfg -> ready c -> reads_as_definition cfg fuel c command n old ->
    t_exp n = None -> t_concept n = Some i -> t_exp old = Some (l, r) ->
    execute cfg fuel command c = Ok (answer, c') ->
    (exists e, answer = error_text e /\ same_meaning (c_snap c) (c_snap c')) \/
    (answer = [] /\ exists xl xr, composed (c_snap c') (place (c_snap c) i) xl xr /\
       (forall j, t_concept l = Some j -> xl = place (c_snap c) j) /\
       (forall j, t_concept r = Some j -> xr = place (c_snap c) j) /\
       only_composition_of (place (c_snap c) i) (c_snap c) (c_snap c')).
  Proof.
    intros F RD (t & c1 & tl & ta & p & ar & nl & na & RT & T1 & T2 & T3 & T4 & T5 & B1 & T6 & B2) N1 N2 O E.
    destruct (command_run cfg fuel _ _ _ _ _ _ F RD E RT)
      as (z & c2 & s1 & s2 & EC & EA & ES1 & ES2 & EX & LK1 & EX1 & _ & ST & LK2 & A2 & CC & FR & OT).
    destruct (okt_parts _ t OT _ _ T2) as [_ Ota]. destruct (okt_parts _ ta Ota _ _ T3) as [_ Op].
    destruct (okt_parts _ p Op _ _ T4) as [_ Oo]. destruct (okt_parts _ old Oo _ _ O) as [Ol Or].
    pose proof (okt_spaced _ l Ol) as Sl. pose proof (okt_spaced _ r Or) as Sr.
    pose proof (names_build _ (read_names cfg fuel _ _ _ _ RD RT)) as NM.
    pose proof (ready_sane c RD) as S. pose proof (ready_prev c RD) as P.
    destruct (call_defines cfg fuel t tl ta n p ar old _ _ i l r c1 z c2 T1 T2 T3 T4 T5 T6
      (built_in_type cfg c1 s1 _ _ _ ES1 LK1 EX1 B1) (built_in_type cfg c1 s1 _ _ _ ES1 LK1 EX1 B2) N1 N2 O EC)
      as [(e & -> & D)|(D & ->)].
    - left. exists e. split; [exact EA|]. apply (building_same_meaning _ (c_delta c2) s2); auto.
      assert (BL : builds c1 c2).
      { destruct D as [D|D]; [apply builds_same, D|].
        exact (execute_composition_changes cfg fuel n old i l r c1 _ c2 N1 N2 O Sl Sr D). }
      destruct BL as (os & PE & PF). change (Forall (fun p => building (snd p)) (pending c2)).
      rewrite PE. apply Forall_app. auto.
    - right. split; [exact EA|].
      destruct (execute_composition_changes cfg fuel n old i l r c1 _ c2 N1 N2 O Sl Sr D)
        as (_ & c4 & c5 & xl & xr & m & x & E4 & E5 & RM & CD & PE).
      destruct (read_good cfg fuel command c t c1 F RD RT) as (C1 & ST1 & _).
      set (snap := c_snap c) in *.
      pose proof (cok_from_ast cfg F (below (size snap)) (fun u => I) snap (sane_ids _ S) fuel l Ol c1 _ c4 C1 E4)
        as (C4 & ST4 & _).
      pose proof (cok_from_ast cfg F (below (size snap)) (fun u => I) snap (sane_ids _ S) fuel r Or c4 _ c5 C4 E5)
        as (C5 & ST5 & _).
      assert (STA : steps cfg (below (size snap)) snap fuel delta_default (c_delta c5)).
      { eapply steps_trans; [exact ST1|]. eapply steps_trans; eassumption. }
      assert (XL : forall j, t_concept l = Some j -> xl = j).
      { intros j T. destruct l; cbn in T, E4; subst; cbn in E4; injection E4 as <- _; reflexivity. }
      assert (XR : forall j, t_concept r = Some j -> xr = j).
      { intros j T. destruct r; cbn in T, E5; subst; cbn in E5; injection E5 as <- _; reflexivity. }
      apply (logs_concept cfg fuel l Sl) in E4. destruct E4 as (_ & l4 & P4 & F4).
      apply (logs_concept cfg fuel r Sr) in E5. destruct E5 as (_ & l5 & P5 & F5).
      pose proof A2 as A5. rewrite PE, apply_directs_app in A5. apply obind_ok in A5. destruct A5 as (s5 & A5 & _).
      destruct (steps_keep cfg snap fuel false (fun _ _ => True) (c_delta c5) s5 S P STA A5) as [LK5 _];
        [discriminate|intros ? ? ? ? ? ? ? ? ? ? ? ? ? ? ? ?; exact I|exact I|].
      rewrite (proj1 C5) in RM. destruct (linked_comp _ _ _ _ _ _ _ LK5 RM) as (MI & _).
      destruct (linked_read _ _ _ _ _ _ _ LK5 RM) as (_ & cc & _ & SM).
      destruct (compose_not_variable _ _ _ _ _ _ _ _ _ CD SM) as (_ & _ & X). rewrite MI in *.
      assert (CX : exists ch, x = DCompose i ch /\ Delta.after ch = Some (xl, xr)).
      { destruct X as [->|(bl & br & ->)]; eexists; split; reflexivity. }
      destruct CX as (ch & -> & AF).
      exists (rho snap xl), (rho snap xr). rewrite place_rho. split; [|split; [|split]].
      + apply composed_at. unfold comp_at. rewrite (same_concepts_at _ _ CC).
        pose proof (last_composes cfg fuel snap (c_delta c2) s2 i ch xl xr (pending c5) S P ST A2 PE AF) as LS.
        exact LS.
      + intros j T. rewrite (XL j T). symmetry. apply place_rho.
      + intros j T. rewrite (XR j T). symmetry. apply place_rho.
      + apply (one_composition _ (c_delta c2) s2); auto.
        intros id w IN. change (In (id, w) (pending c2)) in IN. rewrite PE, P5, P4, !in_app_iff in IN.
        rewrite Forall_forall in NM, F4, F5. destruct IN as [[[IN|IN]|IN]|[IN|[]]].
        * left. exact (NM _ IN).
        * left. exact (F4 _ IN).
        * left. exact (F5 _ IN).
        * right. injection IN as <- <-. eauto.
  Qed.
End Results.
