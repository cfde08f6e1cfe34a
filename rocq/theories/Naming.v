(** The words of a command: what they lead to while it runs and when it is committed. *)
From Verif Require Import Snapshot Context StoreSpec NameSpec MapFacts AstFacts StoreFacts StoreInv RangeFacts
  History Sim SimRead Steps Keep Links Meaning Names Frames StoreLaws Pending Quiet Reductions.
From Coq Require Import List String Relations Permutation PeanoNat Lia.
Import ListNotations.
Local Open Scope zia_scope.

Lemma clos_mono {A} (R R' : A -> A -> Prop) : (forall x y, R x y -> R' x y) ->
  forall x y, clos_trans A R x y -> clos_trans A R' x y.
Proof.
  intros H x y P. induction P as [x y H1|x y z _ IH1 _ IH2]; [apply t_step, H, H1|eapply t_trans; eassumption].
Qed.
(** What is found stays found when nothing that leads to it is taken away. *)
Lemma found_mono s s' w x :
  (forall y k, In k (from_at s y) -> In k (from_at s' y)) ->
  (forall i lr, comp_at s i = Some lr -> comp_at s' i = Some lr) ->
  (forall n cc, built_in s n cc -> built_in s' n cc) ->
  aget text_eqb w (string_map s') = aget text_eqb w (string_map s) ->
  found_under s w x -> found_under s' w x.
Proof.
  intros H1 H2 H3 H4 (str & comp & lab & A & P & C & B). exists str, comp, lab. split; [congruence|]. split.
  - eapply clos_mono; [|exact P]. intros y k. rewrite !from_at_spec. apply H1.
  - split; [|apply H3, B]. apply composed_at, H2, composed_at, C.
Qed.

Section Naming.
  Variables (cfg : config) (snap : snapshot) (fuel : nat).
  Hypothesis F : fair cfg.
  Hypothesis S : sane snap.
  Hypothesis P : prev_unc snap = [].
  Local Notation rho := (rho snap).
  Local Notation n0 := (size snap).
  Local Notation steps := (steps cfg (below n0) snap fuel).

  (** The changes recorded in [d], applied one after the other, give [s]. *)
  Definition amounts_to (d : delta) (s : snapshot) : Prop :=
    steps delta_default d /\ apply_directs (dbg cfg) (d_order (overlay d)) snap = Ok s.
  Lemma amounts_linked d s : amounts_to d s ->
    linked cfg snap false d s /\ strings_linked snap d s /\ extends snap s /\ tidy d /\ same_built_in snap s.
  Proof.
    intros [ST A].
    destruct (steps_keep cfg snap fuel false (fun d s => strings_linked snap d s /\ extends snap s /\ tidy d /\ same_built_in snap s)
       d s S P ST A) as (LK & SL & EX & T & SB); [discriminate| | |auto].
    - intros d1 sa y id d2 sb K1 K2 K3 K4 K5 K6 K7 K8 K9 (I1 & I2 & I3 & I4). split; [|split; [|split]].
      + exact (step_strings cfg snap fuel false d1 sa y id d2 sb K1 K2 K3 K4 K5 K6 K7 K8 K9 I1).
      + eapply extends_trans; [exact I2|]. eapply step_extends; [|exact K8]. apply (sane_numbers sa (lk_sane _ _ _ _ _ K1)).
      + exact (step_tidy cfg snap fuel false d1 sa y id d2 sb K1 K2 K3 K4 K5 K6 K7 K8 K9 I3).
      + exact (step_built_in cfg snap fuel snap d1 sa y id d2 sb K1 K2 K3 K4 K5 K6 K7 K8 K9 I4).
    - split; [intros t; reflexivity|]. split; [apply extends_refl|].
      split; [split; [constructor|intros n nd []]|]. split; [reflexivity|tauto].
  Qed.
  Lemma amounts_step d1 x id d2 s2 : steps delta_default d1 -> delta_update x d1 = Ok (id, d2) -> amounts_to d2 s2 ->
    exists s1, amounts_to d1 s1 /\ apply_direct (dbg cfg) id x s1 = Ok s2.
  Proof.
    intros ST U [_ A]. pose proof (steps_single _ _ _ _ _ _ ST eq_refl) as L.
    destruct (update_order _ _ _ _ L U) as [EO _]. rewrite EO, apply_directs_app in A.
    apply obind_ok in A. destruct A as (s1 & A1 & A2). cbn in A2. apply obind_ok in A2. destruct A2 as (s3 & A2 & [= ->]).
    exists s1. split; [split; assumption|exact A2].
  Qed.
  Lemma amounts_same d s s' : amounts_to d s -> amounts_to d s' -> s' = s.
  Proof. intros [_ A] [_ B]. congruence. Qed.

  (** Changes that take nothing away from what leads to names. *)
  Definition harmless (s : snapshot) (x : direct) : Prop :=
    match x with
    | DNew _ => True
    | DReduce k _ => forall y, ~ lists_reduction_from s y (rho k)
    | DCompose k (Create _) => forall a b, ~ composed s (rho k) a b
    | _ => False
    end.
  Lemma composed_new d1 x s1 c a b :
    steps delta_default d1 -> legit cfg snap fuel d1 x -> good_direct (below n0) x -> amounts_to d1 s1 -> harmless s1 x ->
    comp_change s1 x c a b -> comp_at s1 c = None.
  Proof.
    intros ST LG G AM HL CC. pose proof (proj1 (amounts_linked _ _ AM)) as LK. pose proof (lk_prev _ _ _ _ _ LK) as PV.
    assert (LAST : forall comp r0 nc, last_is d1 comp (DNew (NReducesTo r0)) -> to_committed s1 comp = Ok nc -> comp_at s1 nc = None).
    { intros comp r0 nc LA T. destruct AM as [_ A].
      destruct (last_new cfg snap fuel d1 s1 comp _ S P ST A LA) as (u & s0 & cc & -> & T0 & Z & LC & S0 & G0 & A0 & SP).
      rewrite T in T0. injection T0 as ->. unfold comp_at. rewrite LC. cbn in SP. unfold get_composition.
      destruct (c_spec cc) as [|[] ?|]; cbn in SP; try discriminate; reflexivity. }
    destruct CC as [l r nl nr Tl Tr N|k r cc nc nr Tk Tr N|k l cc nc nl Tk Tl N|k cc nc Tk|k ch l r nc nl nr Tk Tl Tr N A].
    - unfold comp_at, size. rewrite lookup_self. reflexivity.
    - exfalso. inversion LG. subst. match goal with H : compose_delta _ _ _ _ = Ok _ |- _ => apply compose_delta_shape in H; destruct H as (? & [=]) end.
    - inversion LG; subst.
      + eapply LAST; eassumption.
      + match goal with H : compose_delta _ _ _ _ = Ok _ |- _ => apply compose_delta_shape in H; destruct H as (? & [=]) end.
    - inversion LG; subst.
      + eapply LAST; eassumption.
      + match goal with H : compose_delta _ _ _ _ = Ok _ |- _ => apply compose_delta_shape in H; destruct H as (? & [=]) end.
    - assert (nc = rho k) as ->.
      { apply (com_rho snap s1 _ PV k nc); [|exact Tk]. apply G. }
      destruct ch as [lr|b1 b2|b1]; cbn in HL; try destruct HL.
      destruct (comp_at s1 (rho k)) as [[p q]|] eqn:E; [|reflexivity]. apply composed_at in E. destruct (HL _ _ E).
  Qed.
  Lemma harmless_step d1 x id d2 s1 s2 w y :
    steps delta_default d1 -> legit cfg snap fuel d1 x -> good_direct (below n0) x -> delta_update x d1 = Ok (id, d2) ->
    amounts_to d1 s1 -> apply_direct (dbg cfg) id x s1 = Ok s2 -> harmless s1 x -> x <> DNew (NString w) ->
    found_under s1 w y -> found_under s2 w y.
  Proof.
    intros ST LG G U AM AD HL NS. pose proof (proj1 (amounts_linked _ _ AM)) as LK.
    pose proof (lk_sane _ _ _ _ _ LK) as S1. pose proof (sane_numbers _ S1) as W. pose proof (lk_prev _ _ _ _ _ LK) as PV.
    assert (CR : forall j k, below n0 j -> to_committed s1 j = Ok k -> k = rho j).
    { intros j k B T. apply (com_rho snap s1 _ PV j k B T). }
    apply found_mono.
    - intros i k I. destruct (step_red_effect _ _ _ _ _ W AD) as (red & from & RE & _ & FA). rewrite FA.
      destruct RE as [x _ _|r nr T L|a b na nb Ta Tb N L|a b c na nb nc Ta Tb Tc N L|a b na nb Ta Tb N].
      + exact I.
      + destruct (Nat.eqb_spec i (List.length (concepts s1))) as [->|]; [unfold from_at in I; rewrite lookup_self in I; destruct I|].
        destruct (Nat.eqb_spec i nr); [|exact I]. rewrite (sadd_in _ Nat.eqb_spec). auto.
      + destruct (Nat.eqb_spec i nb); [|exact I]. rewrite (sadd_in _ Nat.eqb_spec). auto.
      + assert (k <> na).
        { intros ->. rewrite (CR _ _ (proj1 G) Ta) in I. apply from_at_spec in I. exact (HL _ I). }
        destruct (Nat.eqb_spec i nc); [rewrite (sadd_in _ Nat.eqb_spec); auto|].
        destruct (Nat.eqb_spec i nb); [rewrite (sdel_in _ Nat.eqb_spec); auto|exact I].
      + assert (k <> na).
        { intros ->. rewrite (CR _ _ (proj1 G) Ta) in I. apply from_at_spec in I. exact (HL _ I). }
        destruct (Nat.eqb_spec i nb); [rewrite (sdel_in _ Nat.eqb_spec); auto|exact I].
    - intros i lr I.
      destruct (step_comp _ _ _ _ _ S1 (good_now _ _ _ _ _ _ LK G) AD) as [[K _]|(c & a & b & CC & K & _)].
      + intros c a b ->. exact HL.
      + rewrite K. exact I.
      + rewrite K. destruct (Nat.eqb_spec i c) as [->|]; [|exact I]. exfalso.
        assert (X : comp_at s1 c = None); [|congruence]. clear K I lr.
        exact (composed_new _ _ _ _ _ _ ST LG G AM HL CC).
    - intros n cc. apply (proj1 (proj2 (proj2 (step_extends _ _ _ _ _ W AD)))).
    - pose proof AD as AD'. apply apply_direct_effect in AD'; [|exact W]. destruct AD' as ((Q & _) & _). rewrite Q.
      destruct x as [[t| | | | | | |]|? ?|? ?|?]; try reflexivity. rewrite (aget_aset _ text_eqb_spec).
      destruct (text_eqb_spec w t) as [->|]; [congruence|reflexivity].
  Qed.

  (** From one point of a command to a later one. *)
  Lemma found_stays d1 d2 : steps d1 d2 -> steps delta_default d1 -> forall s2, amounts_to d2 s2 ->
    exists s1 l, amounts_to d1 s1 /\ d_order (overlay d2) = d_order (overlay d1) ++ l /\
      forall w y, (forall id, ~ In (id, DNew (NString w)) l) ->
        (forall id x, In (id, x) l -> exists nd, x = DNew nd) -> found_under s1 w y -> found_under s2 w y.
  Proof.
    intros ST. induction ST as [d|d d1 x id d2 ST IH LG G U]; intros S0 s2 AM.
    - exists s2, []. split; [exact AM|]. split; [now rewrite app_nil_r|auto].
    - specialize (IH S0). pose proof (steps_trans _ _ _ _ _ _ _ S0 ST) as S1.
      destruct (amounts_step d1 x id d2 s2 S1 U AM) as (sa & Aa & AD). destruct (IH _ Aa) as (s1 & l & A1 & EO & H).
      exists s1, (l ++ [(id, x)]). split; [exact A1|]. split.
      + destruct (update_order _ _ _ _ (steps_single _ _ _ _ _ _ S1 eq_refl) U) as [E _]. now rewrite E, EO, app_assoc.
      + intros w y NS AN FU. apply (harmless_step d1 x id d2 sa s2 w y S1 LG G U Aa AD).
        * destruct (AN id x) as (nd & ->); [apply in_or_app; right; left; reflexivity|exact I].
        * intros ->. apply (NS id). apply in_or_app. right. left. reflexivity.
        * apply H; [|intros j z J; apply (AN j z), in_or_app; auto|exact FU]. intros j J. apply (NS j), in_or_app. auto.
  Qed.
  Lemma naming_new x : naming x -> exists nd, x = DNew nd.
  Proof. destruct x; cbn; [eauto|tauto..]. Qed.

  (** The strings that are looked up are those of the store. *)
  Lemma strings_here d s : amounts_to d s -> forall t v, get_string_concept cfg snap d t = Ok v ->
    aget text_eqb t (string_map s) = option_map rho v.
  Proof.
    intros AM t v G. destruct (amounts_linked _ _ AM) as (LK & SL & EX & T & SB).
    pose proof (committed_as_intro cfg false snap d s s F S LK T SB eq_refl) as CA.
    assert (CC : concrete_concepts s = concrete_concepts s) by reflexivity.
    specialize (CA CC SL (fun t => eq_refl)). apply (ca_string _ _ _ _ _ CA) in G. rewrite string_lookup in G.
    injection G as G. destruct (aget text_eqb t (string_map s)), v; cbn in *; unfold renamed in G; congruence.
  Qed.

  (** Making a name. *)
  Lemma recorded_new nd c r c' : update (DNew nd) c = Ok (r, c') -> layers (c_delta c) = [overlay (c_delta c)] ->
    r = Val (Uncommitted (d_num (overlay (c_delta c)))) /\
    delta_update (DNew nd) (c_delta c) = Ok (Uncommitted (d_num (overlay (c_delta c))), c_delta c').
  Proof.
    intros E L. unfold update in E. apply obind_ok in E. destruct E as ([id d'] & E & [= <- <-]). cbn.
    assert (X : id = Uncommitted (d_num (overlay (c_delta c)))); [|rewrite X in *; auto].
    destruct (c_delta c) as [l i]. cbn in E. oinv. subst.
    match goal with H : update_layer _ _ = _ |- _ => apply update_layer_spec in H; destruct H as (U1 & _) end. exact U1.
  Qed.
  Lemma new_number d s : amounts_to d s -> rho (Uncommitted (d_num (overlay d))) = size s.
  Proof. intros A. pose proof (lk_size _ _ _ _ _ (proj1 (amounts_linked _ _ A))). cbn. lia. Qed.
  Lemma labelled_found w l c id c' s' :
    cgood (below n0) snap c -> steps delta_default (c_delta c) ->
    new_labelled_concept cfg w None (Some l) c = Ok (Val id, c') -> amounts_to (c_delta c') s' ->
    built_in snap (rho l) CLabel -> below n0 l ->
    found_under s' w (rho id).
  Proof.
    intros C S0 E AM BL Bl. pose proof (cok_new_labelled cfg (below n0) (fun u => I) snap fuel w (Some l) Bl c _ c' C E) as (_ & ST & _).
    unfold new_labelled_concept in E. apply bind_back in E. destruct E as (x & c0 & E0 & E).
    apply lift_back in E0. destruct E0 as [-> _]. destruct x as [[]|e]; [|destruct E; discriminate].
    pose proof (steps_single _ _ _ _ _ _ S0 eq_refl) as L0.
    apply bind_back in E. destruct E as (x & c1 & E1 & E).
    destruct (cok_update_at cfg (below n0) (fun u => I) snap fuel _ _ _ _ C (LegitString _ _ _ _ w) I E1) as (C1 & S1 & _ & str' & Q1 & La1).
    destruct (recorded_new _ _ _ _ E1 L0) as [-> U1]. injection Q1 as <-.
    pose proof (steps_trans _ _ _ _ _ _ _ S0 S1) as S01. pose proof (steps_single _ _ _ _ _ _ S01 eq_refl) as L1.
    apply bind_back in E. destruct E as (x & c2 & E2 & E).
    destruct (cok_update_at cfg (below n0) (fun u => I) snap fuel _ _ _ _ C1 (LegitReducesTo _ _ _ _ _ _ La1) I E2) as (C2 & S2 & _ & comp' & Q2 & La2).
    destruct (recorded_new _ _ _ _ E2 L1) as [-> U2]. injection Q2 as <-.
    pose proof (steps_trans _ _ _ _ _ _ _ S01 S2) as S02. pose proof (steps_single _ _ _ _ _ _ S02 eq_refl) as L2.
    destruct (cok_update_at cfg (below n0) (fun u => I) snap fuel _ _ _ _ C2 (LegitRighthand _ _ _ _ _ l _ La2) (conj I Bl) E) as (C3 & S3 & _ & _).
    destruct (recorded_new _ _ _ _ E L2) as [[= ->] U3].
    destruct (amounts_step _ _ _ _ _ S02 U3 AM) as (s2 & A2 & D3).
    destruct (amounts_step _ _ _ _ _ S01 U2 A2) as (s1 & A1 & D2).
    destruct (amounts_step _ _ _ _ _ S0 U1 A1) as (s0 & A0 & D1).
    pose proof (proj1 (amounts_linked _ _ A0)) as K0. pose proof (proj1 (amounts_linked _ _ A1)) as K1.
    pose proof (proj1 (amounts_linked _ _ A2)) as K2.
    pose proof (lk_sane _ _ _ _ _ K0) as N0. pose proof (lk_sane _ _ _ _ _ K1) as N1. pose proof (lk_sane _ _ _ _ _ K2) as N2.
    assert (CR : forall d s j k, linked cfg snap false d s -> below n0 j -> to_committed s j = Ok k -> k = rho j).
    { intros d s j k K B T. apply (com_rho snap s _ (lk_prev _ _ _ _ _ K) j k B T). }
    assert (CU : forall d s u k, linked cfg snap false d s -> to_committed s (Uncommitted u) = Ok k -> k = rho (Uncommitted u)).
    { intros d s u k K. apply (CR d s _ _ K). exact I. }
    pose proof D1 as M1. apply apply_direct_effect in M1; [|apply N0]. destruct M1 as ((M1 & _) & _). cbn in M1.
    pose proof D2 as M2. apply apply_direct_effect in M2; [|apply N1]. destruct M2 as ((M2 & _) & _). cbn in M2.
    pose proof D3 as M3. apply apply_direct_effect in M3; [|apply N2]. destruct M3 as ((M3 & _) & _). cbn in M3.
    rewrite (new_number _ _ A2).
    exists (size s0), (size s1), (rho l). split; [|split; [|split]].
    - rewrite M3, M2, M1, (aget_aset _ text_eqb_spec). destruct (text_eqb_spec w w); [reflexivity|congruence].
    - apply t_step, from_at_spec.
      destruct (step_red_effect _ _ _ _ _ (sane_numbers _ N2) D3) as (r3 & f3 & R3 & _ & F3). rewrite F3.
      assert (X : In (size s1) (from_at s2 (size s0))).
      { destruct (step_red_effect _ _ _ _ _ (sane_numbers _ N1) D2) as (r2 & f2 & R2 & _ & F2). rewrite F2.
        inversion R2; subst.
        - match goal with H : forall r, _ <> _ |- _ => destruct (H _ eq_refl) end.
        - match goal with H : to_committed s1 _ = Ok _ |- _ => apply (CU _ _ _ _ K1) in H; subst end.
          pose proof (new_number _ _ A0) as Z0. pose proof (new_number _ _ A1) as Z1.
          match goal with |- context [Nat.eqb (size s0) (List.length ?cs)] => destruct (Nat.eqb_spec (size s0) (List.length cs)) as [Z|Z] end.
          { exfalso. change (List.length (concepts s1)) with (size s1) in Z. rewrite <- Z0, <- Z1 in Z. cbn in Z.
            pose proof (lk_size _ _ _ _ _ K1). pose proof (lk_size _ _ _ _ _ K0).
            apply apply_direct_effect in D1; [|apply N0]. destruct D1 as (_ & us & _ & O). pose proof (size_base _ _ _ _ O) as Y. cbn in Y. lia. }
          rewrite <- Z0, Nat.eqb_refl. apply (sadd_in _ Nat.eqb_spec). left. reflexivity. }
      inversion R3; subst. exact X.
    - apply composed_at.
      destruct (step_comp _ _ _ _ _ N2 (good_now _ _ _ _ _ (DNew (NRighthand (Uncommitted _) l None)) K2 (conj I Bl)) D3 ltac:(discriminate)) as [[_ [_ K]]|(k & a & b & CC & K & _)].
      + exfalso. apply apply_direct_effect in D3; [|apply N2]. destruct D3 as (_ & us & E3 & _). inversion E3; subst.
        eapply K. eapply CcRight; eassumption.
      + rewrite K. inversion CC; subst.
        match goal with H : to_committed s2 (Uncommitted _) = Ok _ |- _ => apply (CU _ _ _ _ K2) in H end.
        match goal with H : to_committed s2 l = Ok _ |- _ => apply (CR _ _ _ _ K2 Bl) in H end. subst.
        rewrite <- (new_number _ _ A1), Nat.eqb_refl. reflexivity.
    - apply (proj1 (proj2 (proj2 (proj1 (proj2 (proj2 (amounts_linked _ _ AM))))))). exact BL.
  Qed.
End Naming.
