(** What the changes recorded by a command leave alone. *)
From Verif Require Import Snapshot Context StoreSpec NameSpec FrameSpec MapFacts AstFacts StoreFacts StoreInv
  RangeFacts History Sim SimRead Steps Keep Quiet.
From Coq Require Import String List Relations PeanoNat Lia.
Import ListNotations.
Local Open Scope zia_scope.

Section Frame.
  Variable cfg : config.
  Variable snap : snapshot.
  Variable fuel : nat.
  Local Notation n0 := (size snap).
  Local Notation rho := (rho snap).

  Definition reduces_one (os : list (cid * direct)) (i : nat) : Prop :=
    exists id k ch, In (id, DReduce k ch) os /\ rho k = i.
  Definition composes_one (os : list (cid * direct)) (i : nat) : Prop :=
    exists id k ch, In (id, DCompose k ch) os /\ rho k = i.
  Definition frame (d : delta) (s : snapshot) : Prop :=
    (forall i, i < n0 -> ~ reduces_one (d_order (overlay d)) i -> red_at s i = red_at snap i) /\
    (forall i, i < n0 -> ~ composes_one (d_order (overlay d)) i -> comp_at s i = comp_at snap i) /\
    (forall i l r, le n0 i -> comp_at s i = Some (l, r) ->
      le n0 r \/
      (exists id l1 r1, In (id, DNew (NComposition l1 r1)) (d_order (overlay d)) /\
         l = rho l1 /\ r = rho r1) \/
      composes_one (d_order (overlay d)) i) /\
    (forall i l r, le n0 i -> comp_at s i = Some (l, r) -> r < n0 ->
      red_at s i = None \/ reduces_one (d_order (overlay d)) i \/ composes_one (d_order (overlay d)) i).
  Lemma fr_red d s : frame d s ->
    forall i, i < n0 -> ~ reduces_one (d_order (overlay d)) i -> red_at s i = red_at snap i.
  Proof. intros H. apply H. Qed.
  Lemma fr_comp d s : frame d s ->
    forall i, i < n0 -> ~ composes_one (d_order (overlay d)) i -> comp_at s i = comp_at snap i.
  Proof. intros H. apply H. Qed.
  Lemma frame_base : sane snap -> frame delta_default snap.
  Proof.
    intros S. split; [auto|]. split; [auto|].
    assert (N : forall i l r, le n0 i -> comp_at snap i <> Some (l, r)).
    { intros i l r L E. unfold comp_at in E. destruct (lookup snap i) eqn:K; [|discriminate].
      apply lookup_lt in K. unfold size in L. lia. }
    split; intros i l r L E; destruct (N i l r L E).
  Qed.
  Lemma more_reduces os x i : reduces_one os i -> reduces_one (os ++ [x]) i.
  Proof. intros (id & k & ch & I & E). exists id, k, ch. rewrite in_app_iff. auto. Qed.
  Lemma more_composes os x i : composes_one os i -> composes_one (os ++ [x]) i.
  Proof. intros (id & k & ch & I & E). exists id, k, ch. rewrite in_app_iff. auto. Qed.
  Lemma last_in {A} (os : list A) x : In x (os ++ [x]).
  Proof. rewrite in_app_iff. right. left. reflexivity. Qed.

  Lemma frame_step : sane snap -> prev_unc snap = [] -> step_keeps cfg snap fuel false frame.
  Proof.
    intros S P d1 s1 x id d2 s2 LK A ST LG G _ U AD LK2 (F1 & F2 & F3 & F4).
    pose proof (lk_sane _ _ _ _ _ LK) as S1. pose proof (lk_size _ _ _ _ _ LK) as Z.
    pose proof (lk_prev _ _ _ _ _ LK) as PV.
    destruct (update_order _ _ _ _ (lk_layers _ _ _ _ _ LK) U) as [EO _].
    assert (CR : forall j k, below n0 j -> to_committed s1 j = Ok k -> k = rho j).
    { intros j k B T. apply (com_rho snap s1 _ PV j k B T). }
    assert (NR : forall c l r, x <> DCompose c (Remove (l, r))).
    { intros c l r. exact (legit_no_remove _ _ _ _ _ _ _ _ _ _ LK LG). }
    split; [|split; [|split]].
    - intros i L N. rewrite EO in N.
      assert (N1 : ~ reduces_one (d_order (overlay d1)) i) by (intros H; apply N, more_reduces, H).
      destruct (step_red_effect _ _ _ _ _ (sane_numbers s1 S1) AD) as (red & from & E & E1 & _).
      rewrite E1, <- (F1 i L N1). destruct E as [y H1 H2|r nr T ?|y z ny nz T1 T2 ? ?|y z w ny nz nw T1 T2 T3 ? ?|y z ny nz T1 T2 ?].
      + reflexivity.
      + destruct (Nat.eqb_spec i (List.length (concepts s1))); [|reflexivity]. unfold size in *. lia.
      + destruct (Nat.eqb_spec i ny) as [->|]; [|reflexivity]. destruct N. cbn in G.
        exists id, y, (Create z). split; [apply last_in|]. symmetry. apply CR; [apply G|exact T1].
      + destruct (Nat.eqb_spec i ny) as [->|]; [|reflexivity]. destruct N. cbn in G.
        exists id, y, (Update z w). split; [apply last_in|]. symmetry. apply CR; [apply G|exact T1].
      + destruct (Nat.eqb_spec i ny) as [->|]; [|reflexivity]. destruct N. cbn in G.
        exists id, y, (Remove z). split; [apply last_in|]. symmetry. apply CR; [apply G|exact T1].
    - intros i L N. rewrite EO in N.
      assert (N1 : ~ composes_one (d_order (overlay d1)) i) by (intros H; apply N, more_composes, H).
      rewrite <- (F2 i L N1).
      destruct (step_comp _ _ _ _ _ S1 (good_now _ _ _ _ _ _ LK G) AD NR) as [(E & _)|(c & l & r & C & E & _)].
      + apply E.
      + rewrite E. destruct (Nat.eqb_spec i c) as [->|]; [|reflexivity]. exfalso.
        assert (LASTU : forall comp r0, last_is d1 comp (DNew (NReducesTo r0)) -> exists u, comp = Uncommitted u).
        { intros comp r0 LA. destruct (last_new cfg snap fuel d1 s1 comp _ S P ST A LA) as (u & ? & ? & -> & _). eauto. }
        assert (CD : forall m a b nd, compose_delta cfg m a b <> Ok (DNew nd)).
        { intros m a b nd H. apply compose_delta_shape in H. destruct H; discriminate. }
        inversion C; subst.
        * lia.
        * inversion LG; subst. eapply CD; eassumption.
        * inversion LG; subst; [|eapply CD; eassumption].
          match goal with H : last_is _ _ _ |- _ => apply LASTU in H; destruct H as [u ->] end.
          match goal with H : to_committed s1 (Uncommitted u) = Ok _ |- _ => apply CR in H; [cbn in H; lia|exact I] end.
        * inversion LG; subst; [|eapply CD; eassumption].
          match goal with H : last_is _ _ _ |- _ => apply LASTU in H; destruct H as [u ->] end.
          match goal with H : to_committed s1 (Uncommitted u) = Ok _ |- _ => apply CR in H; [cbn in H; lia|exact I] end.
        * apply N. eexists _, _, _. split; [apply last_in|]. symmetry. apply CR; [|eassumption].
          cbn in G. apply G.
    - intros i l r L E2. rewrite EO.
      assert (OLD : comp_at s1 i = Some (l, r) -> le n0 r \/
         (exists id0 l' r', In (id0, DNew (NComposition l' r')) (d_order (overlay d1) ++ [(id, x)]) /\ l = rho l' /\ r = rho r') \/
         composes_one (d_order (overlay d1) ++ [(id, x)]) i).
      { intros E. destruct (F3 i l r L E) as [H|[(j & l' & r' & I & H)|H]]; [auto| |].
        - right. left. exists j, l', r'. rewrite in_app_iff. auto.
        - right. right. apply more_composes, H. }
      destruct (step_comp _ _ _ _ _ S1 (good_now _ _ _ _ _ _ LK G) AD NR) as [(E & _)|(c & l0 & r0 & C & E & _)].
      + rewrite E in E2. auto.
      + rewrite E in E2. destruct (Nat.eqb_spec i c) as [->|]; [|auto]. injection E2 as -> ->.
        inversion C; subst; cbn in G.
        * right. left. eexists _, _, _. split; [apply last_in|].
          split; apply CR; try assumption; apply G.
        * (* NLefthand: never recorded *)
          exfalso. inversion LG; subst.
          match goal with H : compose_delta _ _ _ _ = Ok _ |- _ => apply compose_delta_shape in H; destruct H; discriminate end.
        * left. lia.
        * left. lia.
        * right. right. eexists _, _, _. split; [apply last_in|]. symmetry. apply CR; [|eassumption]. apply G.
    - intros i l r L E2 Lr. rewrite EO.
      assert (OLD : comp_at s1 i = Some (l, r) -> red_at s2 i = red_at s1 i ->
        red_at s2 i = None \/ reduces_one (d_order (overlay d1) ++ [(id, x)]) i \/
        composes_one (d_order (overlay d1) ++ [(id, x)]) i).
      { intros E ER. rewrite ER. destruct (F4 i l r L E Lr) as [H|[H|H]]; [auto| |].
        - right. left. apply more_reduces, H.
        - right. right. apply more_composes, H. }
      destruct (step_red_effect _ _ _ _ _ (sane_numbers s1 S1) AD) as (red & from & RE & RA & _).
      destruct (step_comp _ _ _ _ _ S1 (good_now _ _ _ _ _ _ LK G) AD NR) as [(E & _)|(c & l0 & r0 & C & E & _)].
      + rewrite E in E2.
        destruct RE as [y H1 H2|r1 nr T ?|y z ny nz T1 T2 ? ?|y z w ny nz nw T1 T2 T3 ? ?|y z ny nz T1 T2 ?].
        * apply OLD; [exact E2|apply RA].
        * apply OLD; [exact E2|]. rewrite RA. destruct (Nat.eqb_spec i (List.length (concepts s1))) as [->|]; [|reflexivity].
          unfold comp_at in E2. rewrite lookup_self in E2. discriminate.
        * destruct (Nat.eqb_spec i ny) as [->|N]; [|apply OLD; [exact E2|]; rewrite RA; destruct (Nat.eqb_spec i ny); tauto].
          right. left. cbn in G. exists id, y, (Create z). split; [apply last_in|]. symmetry. apply CR; [apply G|exact T1].
        * destruct (Nat.eqb_spec i ny) as [->|N]; [|apply OLD; [exact E2|]; rewrite RA; destruct (Nat.eqb_spec i ny); tauto].
          right. left. cbn in G. exists id, y, (Update z w). split; [apply last_in|]. symmetry. apply CR; [apply G|exact T1].
        * destruct (Nat.eqb_spec i ny) as [->|N]; [|apply OLD; [exact E2|]; rewrite RA; destruct (Nat.eqb_spec i ny); tauto].
          right. left. cbn in G. exists id, y, (Remove z). split; [apply last_in|]. symmetry. apply CR; [apply G|exact T1].
      + assert (RS : forall j, red_at s2 j = red_at s1 j).
        { intros j. rewrite RA. destruct C; inversion RE; subst; reflexivity. }
        rewrite E in E2. destruct (Nat.eqb_spec i c) as [->|]; [|apply OLD; [exact E2|apply RS]].
        injection E2 as -> ->. inversion C; subst; cbn in G.
        * left. rewrite RS. unfold red_at, size. rewrite lookup_self. reflexivity.
        * exfalso. inversion LG; subst.
          match goal with H : compose_delta _ _ _ _ = Ok _ |- _ => apply compose_delta_shape in H; destruct H; discriminate end.
        * lia.
        * lia.
        * right. right. eexists _, _, _. split; [apply last_in|]. symmetry. apply CR; [|eassumption]. apply G.
  Qed.
End Frame.

(** Every command: the frame holds for its store. *)
Lemma execute_frame cfg fuel t c r c' :
  fair cfg -> ready c -> execute cfg fuel t c = Ok (r, c') ->
  exists z c1, run_command cfg fuel t c = Ok (z, c1) /\
    r = match z with Val s => s | Fail e => error_text e end /\
    extends (c_snap c) (c_snap c') /\
    exists s1, linked cfg (c_snap c) false (c_delta c1) s1 /\
      apply_directs (dbg cfg) (d_order (overlay (c_delta c1))) (c_snap c) = Ok s1 /\
      concepts (c_snap c') = concepts s1 /\ frame (c_snap c) (c_delta c1) s1.
Proof.
  intros F RD E.
  destruct (execute_run cfg fuel t c r c' F RD E) as (z & c1 & E1 & E2 & E3 & ST & G & L & A & _).
  destruct (apply_split _ _ _ _ (ready_sane c RD) L G A) as (s1 & A1 & C1 & C2 & _).
  exists z, c1. split; [exact E1|]. split; [exact E3|].
  destruct (steps_keep cfg (c_snap c) fuel false (fun d s => frame (c_snap c) d s /\ extends (c_snap c) s)
     (c_delta c1) s1 (ready_sane c RD) (ready_prev c RD) ST A1) as [LK [FR EX]].
  - discriminate.
  - intros d1 sa x id d2 sb K1 K2 K3 K4 K5 K6 K7 K8 K9 [K10 K11]. split.
    + exact (frame_step cfg (c_snap c) fuel (ready_sane c RD) (ready_prev c RD) d1 sa x id d2 sb K1 K2 K3 K4 K5 K6 K7 K8 K9 K10).
    + eapply extends_trans; [exact K11|]. eapply step_extends; [|exact K8].
      apply (sane_numbers sa (lk_sane _ _ _ _ _ K1)).
  - split; [apply frame_base, RD|apply extends_refl].
  - split.
    + destruct EX as (X1 & X2 & X3 & X4). unfold extends, has_text, built_in, is_abstract, lookup in *. rewrite C1.
      split; [exact X1|]. split; [exact X2|]. split; assumption.
    + exists s1. auto.
Qed.

(** Existing concepts stay what they are. *)
Lemma extends_text s s' n : extends s s' -> lookup s n <> None -> same_text s s' n.
Proof.
  intros (E1 & E2 & E3 & E4) L. destruct (lookup s n) as [c|] eqn:K; [|contradiction].
  assert (X : has_text s n = has_text s n) by reflexivity. clear X.
  destruct (c_spec c) as [cc|comp red|t] eqn:Sp.
  - assert (B : built_in s n cc) by (exists c; auto). pose proof (E3 _ _ B) as (c' & L' & B').
    split; intros y; (split; [auto|]).
    + intros (c2 & L2 & H). assert (c2 = c') by congruence. subst. congruence.
    + intros (c2 & L2 & H). assert (c2 = c') by congruence. subst. replace y with cc by congruence. exact B.
  - assert (B : is_abstract s n) by (exists c, comp, red; auto). pose proof (E4 _ B) as (c' & k & r & L' & B').
    split; intros y; (split; [auto|]); intros (c2 & L2 & H); assert (c2 = c') by congruence; subst; congruence.
  - assert (B : has_text s n t) by (exists c; auto). pose proof (E2 _ _ B) as (c' & L' & B').
    split; intros y; (split; [auto|]).
    + intros (c2 & L2 & H). assert (c2 = c') by congruence. subst. replace y with t by congruence. exact B.
    + intros (c2 & L2 & H). assert (c2 = c') by congruence. subst. congruence.
Qed.
Lemma known_lt s n : lookup s n <> None <-> n < size s.
Proof. unfold lookup, size. apply nth_error_Some. Qed.

Section Labels.
  Variables s s' : snapshot.
  Hypothesis S : sane s.
  Hypothesis EX : extends s s'.
  Lemma red_range n r : reduces s n r -> n < size s /\ r < size s.
  Proof.
    intros (c & comp & L & Sp). pose proof (proj1 (sane_ids s S) n c L) as (_ & _ & _ & _ & O).
    unfold okspec in O. rewrite Sp in O. split.
    - apply known_lt. congruence.
    - destruct comp; cbn in O; tauto.
  Qed.
  Lemma composed_range n l r : composed s n l r -> n < size s /\ l < size s /\ r < size s.
  Proof.
    intros C. split.
    - destruct C as (c & _ & _ & _ & L & _). apply known_lt. congruence.
    - apply composed_at in C. exact (comp_range s n l r S C).
  Qed.
  Lemma text_known n t : n < size s -> has_text s n t <-> has_text s' n t.
  Proof. intros L. apply known_lt in L. apply (extends_text s s' n EX L). Qed.
  Lemma built_in_known n cc : n < size s -> built_in s n cc <-> built_in s' n cc.
  Proof. intros L. apply known_lt in L. apply (extends_text s s' n EX L). Qed.

  (** Same chains of reductions out of [a], if nothing on them changes. *)
  Lemma chain_forth a b :
    (forall x, clos_refl_trans nat (reduces s) a x -> x < size s -> same_reduction s s' x) ->
    clos_trans nat (reduces s) a b -> clos_trans nat (reduces s') a b.
  Proof.
    intros H C. apply clos_trans_tn1_iff in C. apply clos_trans_tn1_iff.
    induction C as [y R|y z R C IH].
    - apply tn1_step. apply (H a); [apply rt_refl|apply (red_range _ _ R)|exact R].
    - refine (Relation_Operators.tn1_trans nat (reduces s') a y z _ IH). apply (H y); [|apply (red_range _ _ R)|exact R].
      apply clos_trans_tn1_iff in C. clear - C. induction C; [apply rt_step; assumption|eapply rt_trans; eassumption].
  Qed.
  Lemma chain_back a b :
    a < size s ->
    (forall x, clos_refl_trans nat (reduces s) a x -> x < size s -> same_reduction s s' x) ->
    clos_trans nat (reduces s') a b -> clos_trans nat (reduces s) a b /\ b < size s.
  Proof.
    intros La H C. apply clos_trans_tn1_iff in C.
    induction C as [y R|y z R C IH].
    - apply (H a) in R; [|apply rt_refl|exact La]. split; [apply t_step, R|apply (red_range _ _ R)].
    - destruct IH as [IH Ly]. apply (H y) in R; [| |exact Ly].
      + split; [eapply t_trans; [exact IH|apply t_step, R]|apply (red_range _ _ R)].
      + clear - IH. induction IH; [apply rt_step; assumption|eapply rt_trans; eassumption].
  Qed.
  Lemma label_same n :
    n < size s ->
    (forall x, x < size s -> same_composition s s' x) ->
    (forall x l r, le (size s) x -> composed s' x l n -> built_in s' l CLabel -> ~ reduces s' x r) ->
    (forall x, on_label_path s n x -> same_reduction s s' x) ->
    same_label s s' n.
  Proof.
    intros Ln HC HN HR t. split; intros (lab & comp & str & B & C & R & T).
    - destruct (composed_range _ _ _ C) as (L1 & L2 & _).
      assert (P : forall x, clos_refl_trans nat (reduces s) comp x -> x < size s -> same_reduction s s' x).
      { intros x X _. apply HR. exists lab, comp. auto. }
      exists lab, comp, str. split; [apply EX, B|]. split; [apply HC; assumption|].
      split; [exact (chain_forth _ _ P R)|]. apply EX, T.
    - assert (L1 : comp < size s).
      { destruct (Nat.lt_ge_cases comp (size s)) as [L|L]; [exact L|].
        assert (H : exists r, reduces s' comp r).
        { clear - R. induction R; eauto. }
        destruct H as [r H]. destruct (HN comp lab r L C B H). }
      apply (HC comp L1) in C. destruct (composed_range _ _ _ C) as (_ & L2 & _).
      apply (built_in_known _ _ L2) in B.
      assert (P : forall x, clos_refl_trans nat (reduces s) comp x -> x < size s -> same_reduction s s' x).
      { intros x X _. apply HR. exists lab, comp. auto. }
      destruct (chain_back comp str L1 P R) as [R' L3].
      apply (text_known _ _ L3) in T. exists lab, comp, str. auto.
  Qed.
End Labels.

Lemma frame_same_reduction snap d s s' n :
  frame snap d s -> concepts s' = concepts s -> n < size snap ->
  ~ reduces_one snap (d_order (overlay d)) n -> same_reduction snap s' n.
Proof.
  intros FR C L N r. rewrite !reduces_at. unfold red_at. rewrite (same_concepts_at _ _ C n).
  pose proof (fr_red _ _ _ FR n L N) as E. unfold red_at in E. rewrite E. tauto.
Qed.
Lemma frame_same_composition snap d s s' n :
  frame snap d s -> concepts s' = concepts s -> n < size snap ->
  ~ composes_one snap (d_order (overlay d)) n -> same_composition snap s' n.
Proof.
  intros FR C L N l r. rewrite !composed_at. unfold comp_at. rewrite (same_concepts_at _ _ C n).
  pose proof (fr_comp _ _ _ FR n L N) as E. unfold comp_at in E. rewrite E. tauto.
Qed.

(** Changes that only name new symbols leave everything that exists as it is. *)
Lemma naming_same_meaning cfg fuel t c r c' :
  fair cfg -> ready c -> execute cfg fuel t c = Ok (r, c') ->
  (forall z c1, run_command cfg fuel t c = Ok (z, c1) ->
     exists l, pending c1 = pending c ++ l /\ Forall (fun p => naming (snd p)) l) ->
  same_meaning (c_snap c) (c_snap c').
Proof.
  intros F RD E HP.
  destruct (execute_frame cfg fuel t c r c' F RD E) as (z & c1 & E1 & Er & EX & s1 & LK & A & C & FR).
  destruct (HP _ _ E1) as (l & P & NM).
  unfold pending in P. rewrite (ready_delta c RD) in P. cbn in P. rewrite Forall_forall in NM.
  assert (R : forall i, ~ reduces_one (c_snap c) (d_order (overlay (c_delta c1))) i).
  { intros i (id & k & ch & I & _). rewrite P in I. exact (NM _ I). }
  assert (K : forall i, ~ composes_one (c_snap c) (d_order (overlay (c_delta c1))) i).
  { intros i (id & k & ch & I & _). rewrite P in I. exact (NM _ I). }
  intros n L. pose proof (extends_text _ _ _ EX L) as T. apply known_lt in L.
  pose proof (fun x Lx => frame_same_reduction _ _ _ _ x FR C Lx (R x)) as SR.
  pose proof (fun x Lx => frame_same_composition _ _ _ _ x FR C Lx (K x)) as SC.
  split; [auto|]. split; [auto|]. split; [exact T|].
  apply (label_same _ _ (ready_sane c RD) EX n L SC).
  - intros x y rx Lx Cx _ _. apply composed_at in Cx.
    unfold comp_at in Cx. rewrite (same_concepts_at _ _ C) in Cx.
    destruct (proj1 (proj2 (proj2 FR)) x y n Lx Cx) as [H|[(id & l1 & r1 & I & _)|H]].
    + lia.
    + rewrite P in I. exact (NM _ I).
    + exact (K _ H).
  - intros x (lab & comp & _ & Cx & Rx). apply SR.
    apply (composed_range _ (ready_sane c RD)) in Cx. destruct Cx as [Cx _].
    clear - Rx Cx RD. induction Rx as [x y H| |x y z H1 IH1 H2 IH2]; auto.
    apply (red_range _ (ready_sane c RD) _ _ H).
Qed.
Lemma quiet_same_meaning cfg fuel t c r c' :
  fair cfg -> ready c -> execute cfg fuel t c = Ok (r, c') ->
  r <> [] -> (forall e, r <> error_text e) -> same_meaning (c_snap c) (c_snap c').
Proof.
  intros F RD E N1 N2. apply (naming_same_meaning cfg fuel t c r c' F RD E). intros z c1 E1.
  destruct (execute_frame cfg fuel t c r c' F RD E) as (z' & c1' & E1' & Er & _).
  rewrite E1 in E1'. injection E1' as <- <-.
  destruct (run_quiet _ _ _ _ _ _ E1) as [H|[->|(e & ->)]]; [exact H|congruence|destruct (N2 e); exact Er].
Qed.
