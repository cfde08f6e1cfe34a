(** The commands `let x -> y`, `let x -> x` and `forget x`, from their text to the store. *)
From Verif Require Import Snapshot Search Context StoreSpec NameSpec FrameSpec MapFacts AstFacts StoreFacts StoreInv
  RangeFacts History Sim SimRead Steps Keep Quiet SearchPlain Frames Reductions.
From Coq Require Import String List Relations PeanoNat Lia Bool.
Import ListNotations.
Local Open Scope zia_scope.

(** ** What a command is read as *)

(** [command] is read as `let (a (-> b))`, with the built-in `let` and `->`. *)
Definition reads_as_reduction (cfg : config) (fuel : nat) (c : ctx) (command : text) (a b : tree) : Prop :=
  exists t c1 tl ta p ar nl na,
    read_tree cfg fuel command c = Ok (Val t, c1) /\
    t_concept t = None /\ t_exp t = Some (tl, ta) /\ t_exp ta = Some (a, p) /\ t_exp p = Some (ar, b) /\
    t_concept tl = Some (Committed nl) /\ built_in (c_snap c) nl CLet /\
    t_concept ar = Some (Committed na) /\ built_in (c_snap c) na CReduction.
(** [command] is read as `forget a`, with the built-in `forget`. *)
Definition reads_as_forget (cfg : config) (fuel : nat) (c : ctx) (command : text) (a : tree) : Prop :=
  exists t c1 tf nf,
    read_tree cfg fuel command c = Ok (Val t, c1) /\
    t_concept t = None /\ t_exp t = Some (tf, a) /\
    t_concept tf = Some (Committed nf) /\ built_in (c_snap c) nf CForget.

Section Run.
  Variable cfg : config.
  Variable fuel : nat.

  Lemma steps_order P snap d d' :
    steps cfg P snap fuel d d' -> layers d = [overlay d] ->
    exists l, d_order (overlay d') = d_order (overlay d) ++ l.
  Proof.
    intros ST L. induction ST as [d|d d1 x id d2 ST IH LG G U].
    - exists []. rewrite app_nil_r. reflexivity.
    - destruct (IH L) as [l E]. pose proof (steps_single _ _ _ _ _ _ ST L) as Ld.
      destruct (update_order _ _ _ _ Ld U) as [EO _]. exists (l ++ [(id, x)]). rewrite EO, E, app_assoc. reflexivity.
  Qed.

  (** What a command is read as, and the store then. *)
  Lemma read_good command c t c1 :
    fair cfg -> ready c -> read_tree cfg fuel command c = Ok (Val t, c1) ->
    cgood (below (size (c_snap c))) (c_snap c) c1 /\
    steps cfg (below (size (c_snap c))) (c_snap c) fuel delta_default (c_delta c1) /\
    @good tree (good_tree (below (size (c_snap c)))) t.
  Proof.
    intros F RD RT. set (snap := c_snap c).
    assert (C : cgood (below (size snap)) snap c).
    { split; [reflexivity|]. rewrite (ready_delta c RD), (ready_vars c RD). split; [apply good_delta_default|].
      split; [exact (ready_cache c RD)|]. intros ? []. }
    pose proof (ready_sane c RD) as S. fold snap in S. rewrite <- (ready_delta c RD).
    pose proof RT as E0. unfold read_tree in E0.
    apply bind_back in E0. destruct E0 as (t1 & cc1 & E1 & E0).
    pose proof (cok_expression cfg F (below (size snap)) (fun u => I) snap (sane_ids _ S) fuel command c t1 cc1 C E1) as (C1 & S1 & G1).
    destruct t1 as [t1|e]; [|destruct E0; discriminate].
    apply bind_back in E0. destruct E0 as (t2 & c2 & E2 & E0).
    pose proof (cok_expand cfg F (below (size snap)) (fun u => I) snap (sane_ids _ S) fuel t1 G1 cc1 t2 c2 C1 E2) as (C2 & S2 & G2).
    destruct t2 as [t2|e]; [|destruct E0; discriminate].
    apply obind_ok in E0. destruct E0 as ([x c3] & E3 & E0). destruct x as [x|]; [|discriminate].
    injection E0 as <- <-.
    pose proof (cok_create cfg (below (size snap)) (fun u => I) snap fuel t2 G2 c2 _ c3 C2 E3) as (C3 & S3 & G3).
    split; [exact C3|]. split; [|exact G3]. eapply steps_trans; [eapply steps_trans; eassumption|exact S3].
  Qed.

  (** A command that is read as [t]: the store after reading, and after evaluating. *)
  Lemma command_run command c answer c' t c1 :
    fair cfg -> ready c -> execute cfg fuel command c = Ok (answer, c') ->
    read_tree cfg fuel command c = Ok (Val t, c1) ->
    exists z c2 s1 s2, call cfg fuel t c1 = Ok (z, c2) /\
      answer = match z with Val s => s | Fail e => error_text e end /\
      c_snap c1 = c_snap c /\ c_snap c2 = c_snap c /\
      extends (c_snap c) (c_snap c') /\
      linked cfg (c_snap c) false (c_delta c1) s1 /\ extends (c_snap c) s1 /\ frame (c_snap c) (c_delta c1) s1 /\
      steps cfg (below (size (c_snap c))) (c_snap c) fuel delta_default (c_delta c2) /\
      linked cfg (c_snap c) false (c_delta c2) s2 /\
      apply_directs (dbg cfg) (pending c2) (c_snap c) = Ok s2 /\
      concepts (c_snap c') = concepts s2 /\ frame (c_snap c) (c_delta c2) s2 /\
      okt (below (size (c_snap c))) t.
  Proof.
    intros F RD E RT. set (snap := c_snap c).
    assert (C : cgood (below (size snap)) snap c).
    { split; [reflexivity|]. rewrite (ready_delta c RD), (ready_vars c RD). split; [apply good_delta_default|].
      split; [exact (ready_cache c RD)|]. intros ? []. }
    pose proof (ready_sane c RD) as S. pose proof (ready_prev c RD) as P. fold snap in S, P.
    destruct (read_good command c t c1 F RD RT) as (C1 & ST1 & G).
    destruct (execute_run cfg fuel command c answer c' F RD E) as (z & c2 & E1 & Ez & Ea & ST & GD & L & A & _).
    destruct (run_by_tree _ _ _ _ _ _ E1) as (x & cx & Ex & Ec). rewrite RT in Ex. injection Ex as <- <-.
    destruct (execute_frame cfg fuel command c answer c' F RD E) as (z' & c2' & E1' & _ & EX & s2 & LK & A2 & CC & FR).
    rewrite E1 in E1'. injection E1' as <- <-.
    pose proof (proj1 (cok_calls cfg F (below (size snap)) (fun u => I) snap (sane_ids _ S) fuel fuel) t G c1 z c2 C1 Ec)
      as (_ & ST2 & _).
    pose proof (steps_single _ _ _ _ _ _ ST1 eq_refl) as L1.
    destruct (steps_order _ _ _ _ ST2 L1) as [l EO].
    pose proof A2 as A1. rewrite EO, apply_directs_app in A1. apply obind_ok in A1. destruct A1 as (s1 & A1 & _).
    destruct (steps_keep cfg snap fuel false (fun d s => frame snap d s /\ extends snap s)
       (c_delta c1) s1 S P ST1 A1) as [LK1 [FR1 EX1]].
    - discriminate.
    - intros d1 sa y id d2 sb K1 K2 K3 K4 K5 K6 K7 K8 K9 [K10 K11]. split.
      + exact (frame_step cfg snap fuel S P d1 sa y id d2 sb K1 K2 K3 K4 K5 K6 K7 K8 K9 K10).
      + eapply extends_trans; [exact K11|]. eapply step_extends; [|exact K8].
        apply (sane_numbers sa (lk_sane _ _ _ _ _ K1)).
    - split; [apply frame_base, S|apply extends_refl].
    - exists z, c2, s1, s2. repeat (split; [first [assumption|exact (proj1 C1)]|]). exact G.
  Qed.

  Lemma built_in_type c1 s1 snap n cc :
    c_snap c1 = snap -> linked cfg snap false (c_delta c1) s1 -> extends snap s1 -> built_in snap n cc ->
    only_type cfg c1 (Committed n) cc.
  Proof.
    intros ES LK EX B x E. rewrite ES in E. unfold concrete_concept_type, omap in E.
    apply obind_ok in E. destruct E as (m & R & E). injection E as <-.
    destruct (linked_read _ _ _ _ _ _ _ LK R) as (_ & k & L & SM).
    apply EX in B. destruct B as (k' & L' & B). change (lookup s1 n = Some k) in L. assert (k' = k) by congruence. subst k'.
    pose proof (sim_spec _ _ _ _ _ SM) as SP. cbn in SP. rewrite B in SP. cbn in SP.
    unfold m_spec in SP. destruct m as [o u1 u2 u3|o]; cbn.
    - unfold get_concrete. destruct (c_spec o) as [cc'|kd red|t]; cbn in SP; try discriminate; congruence.
    - unfold get_concrete. destruct (c_spec o) as [cc'|kd red|t]; cbn in SP; try discriminate; try congruence;
        destruct kd; discriminate.
  Qed.
End Run.

(** ** What changes when only new concepts are made, and some reductions *)
Section Effect.
  Variable target : nat -> Prop.
  Hypothesis dec : forall n, target n \/ ~ target n.

  Lemma path_transfer s s' a x :
    (forall n r, reduces s n r -> ~ target n -> reduces s' n r) ->
    clos_refl_trans nat (reduces s) a x -> target x ->
    exists y, target y /\ clos_refl_trans nat (reduces s') a y.
  Proof.
    intros H C T. apply clos_rt_rt1n in C. induction C as [a|a b c R C IH].
    - exists a. split; [exact T|apply rt_refl].
    - destruct (dec a) as [Ta|Na]; [exists a; split; [exact Ta|apply rt_refl]|].
      destruct (IH T) as (y & Ty & P). exists y. split; [exact Ty|].
      eapply rt_trans; [apply rt_step, (H _ _ R Na)|exact P].
  Qed.
  Lemma effect snap d s s' :
    sane snap -> extends snap s' -> frame snap d s -> concepts s' = concepts s ->
    (forall id x, In (id, x) (d_order (overlay d)) ->
       building x \/ exists k ch, x = DReduce k ch /\ target (rho snap k)) ->
    forall n, lookup snap n <> None ->
      (~ target n -> same_reduction snap s' n) /\ same_composition snap s' n /\ same_text snap s' n /\
      ((forall x, target x -> ~ on_label_path s' n x) -> same_label snap s' n).
  Proof.
    intros S EX FR CC H n L.
    assert (NB : forall k ch, ~ building (DReduce k ch)).
    { intros k ch [B|(l & r & B)]; [exact B|discriminate]. }
    assert (R : forall i, ~ target i -> ~ reduces_one snap (d_order (overlay d)) i).
    { intros i N (id & k & ch & I & E). apply H in I. destruct I as [I|(k' & ch' & I & T)]; [exact (NB _ _ I)|].
      injection I as <- <-. subst i. exact (N T). }
    assert (K : forall i, ~ composes_one snap (d_order (overlay d)) i).
    { intros i (id & k & ch & I & E). apply H in I.
      destruct I as [[I|(l & r & I)]|(k' & ch' & I & T)]; [exact I|discriminate I|discriminate I]. }
    pose proof (fun x Lx Nx => frame_same_reduction _ _ _ _ x FR CC Lx (R x Nx)) as SR.
    pose proof (fun x Lx => frame_same_composition _ _ _ _ x FR CC Lx (K x)) as SC.
    pose proof (extends_text _ _ _ EX L) as T. apply known_lt in L.
    split; [auto|]. split; [auto|]. split; [exact T|]. intros NP.
    apply (label_same _ _ S EX n L SC).
    - intros x l r Lx Cx Bx Rx. pose proof Cx as Cx'. apply composed_at in Cx'.
      unfold comp_at in Cx'. rewrite (same_concepts_at _ _ CC) in Cx'.
      destruct (proj2 (proj2 (proj2 FR)) x l n Lx Cx' L) as [E|[E|E]].
      + apply reduces_at in Rx. unfold red_at in Rx. rewrite (same_concepts_at _ _ CC) in Rx.
        unfold red_at in E. congruence.
      + destruct (dec x) as [Tx|Nx]; [|exact (R x Nx E)].
        apply (NP x Tx). exists l, x. split; [exact Bx|]. split; [exact Cx|apply rt_refl].
      + exact (K _ E).
    - intros x (lab & comp & B & Cx & Rx).
      assert (Lx : x < size snap).
      { apply (composed_range _ S) in Cx. destruct Cx as [Cx _].
        clear - Rx Cx S. induction Rx as [x y Hxy| |x y z H1 IH1 H2 IH2]; auto.
        apply (red_range _ S _ _ Hxy). }
      destruct (dec x) as [Tx|Nx]; [|auto]. exfalso.
      assert (PT : forall m q, reduces snap m q -> ~ target m -> reduces s' m q).
      { intros m q Rm Nm. apply SR; [apply (red_range _ S _ _ Rm)|exact Nm|exact Rm]. }
      destruct (path_transfer snap s' comp x PT Rx Tx) as (y & Ty & Py).
      apply (NP y Ty). exists lab, comp. split; [apply EX, B|]. split; [|exact Py].
      apply SC; [apply (composed_range _ S _ _ _ Cx)|exact Cx].
  Qed.
End Effect.

Lemma building_same_meaning snap d s s' :
  sane snap -> extends snap s' -> frame snap d s -> concepts s' = concepts s ->
  Forall (fun p => building (snd p)) (d_order (overlay d)) -> same_meaning snap s'.
Proof.
  intros S EX FR CC H n L. rewrite Forall_forall in H.
  destruct (effect (fun _ => False) (fun _ => or_intror (fun x => x)) snap d s s' S EX FR CC) with (n := n)
    as (E1 & E2 & E3 & E4).
  - intros id x I. left. exact (H _ I).
  - exact L.
  - split; [apply E1; tauto|]. split; [exact E2|]. split; [exact E3|]. apply E4. intros x [].
Qed.

Lemma one_reduction snap d s s' x :
  sane snap -> extends snap s' -> frame snap d s -> concepts s' = concepts s ->
  (forall id y, In (id, y) (d_order (overlay d)) ->
     building y \/ exists k ch, y = DReduce k ch /\ rho snap k = x) ->
  only_reduction_of x snap s'.
Proof.
  intros S EX FR CC H n L.
  destruct (effect (fun i => i = x)) with (snap := snap) (d := d) (s := s) (s' := s') (n := n) as (E1 & E2 & E3 & E4); auto.
  - intros i. destruct (Nat.eq_dec i x); auto.
  - split; [exact E1|]. split; [exact E2|]. split; [exact E3|]. intros N. apply E4. intros y ->. exact N.
Qed.
Lemma place_rho s id : place s id = rho s id.
Proof. destruct id; reflexivity. Qed.
Lemma error_not_empty e : error_text e <> [].
Proof. 
  intros H. apply (f_equal (@List.length _)) in H. destruct e; try discriminate H.
  unfold error_text in H. rewrite !app_length in H. cbn in H. lia.
Qed.

(** The trees that are read are displayed with spaces. *)
Lemma okt_parts P t : okt P t -> forall l r, t_exp t = Some (l, r) -> okt P l /\ okt P r.
Proof. destruct t as [|s c l r fv bv]; cbn; [discriminate|]. intros (_ & A & B & _) l' r' [= <- <-]. auto. Qed.
Lemma okt_spaced P t : okt P t -> spaced t.
Proof.
  induction t as [s c k|s c l IHl r IHr fv bv]; cbn [okt spaced]; [exact (fun _ => I)|].
  intros (_ & A & B & G). destruct c as [c|]; [left; discriminate|]. right. split; [|auto].
  specialize (G eq_refl). unfold smem. apply existsb_exists. exists c_space. split; [|apply N.eqb_refl].
  destruct s as [s|]; cbn; [exact G|]. apply in_or_app. right. left. reflexivity.
Qed.

Section Results.
  Variable cfg : config.
  Variable fuel : nat.

  (** The last change, if it sets a reduction. *)
  Lemma last_sets snap d s k ch l :
    sane snap -> prev_unc snap = [] ->
    steps cfg (below (size snap)) snap fuel delta_default d ->
    apply_directs (dbg cfg) (d_order (overlay d)) snap = Ok s ->
    d_order (overlay d) = l ++ [(k, DReduce k ch)] ->
    red_at s (rho snap k) = option_map (rho snap) (Delta.after ch).
  Proof.
    intros S P ST A EO.
    destruct (last_step cfg snap fuel d s k (DReduce k ch) S P ST A ltac:(exists l; exact EO))
      as (d0 & s0 & LK & G & LG & U & AD).
    pose proof (lk_prev _ _ _ _ _ LK) as PV.
    assert (CR : forall j n, below (size snap) j -> to_committed s0 j = Ok n -> n = rho snap j).
    { intros j n B T. apply (com_rho snap s0 _ PV j n B T). }
    destruct (step_red_effect _ _ _ _ _ (sane_numbers s0 (lk_sane _ _ _ _ _ LK)) AD) as (red & from & RE & RA & _).
    rewrite RA. inversion RE; subst.
    - match goal with H : forall u c, _ <> _ |- _ => destruct (H k ch eq_refl) end.
    - cbn in G. match goal with T : to_committed s0 k = Ok _ |- _ => rewrite (CR _ _ (proj1 G) T) end.
      rewrite Nat.eqb_refl. cbn. f_equal. apply CR; [exact (proj2 G)|assumption].
    - cbn in G. match goal with T : to_committed s0 k = Ok _ |- _ => rewrite (CR _ _ (proj1 G) T) end.
      rewrite Nat.eqb_refl. cbn. f_equal. apply CR; [exact (proj2 (proj2 G))|assumption].
    - cbn in G. match goal with T : to_committed s0 k = Ok _ |- _ => rewrite (CR _ _ (proj1 G) T) end.
      rewrite Nat.eqb_refl. reflexivity.
  Qed.

  Lemma read_names command c t c1 :
    ready c -> read_tree cfg fuel command c = Ok (Val t, c1) -> Forall (fun p => naming (snd p)) (pending c1).
  Proof.
    intros RD RT. apply logs_read_tree in RT. destruct RT as (_ & l & E & H).
    unfold pending in E at 2. rewrite (ready_delta c RD) in E. cbn in E. rewrite E. exact H.
  Qed.
  Lemma names_build os : Forall (fun p : cid * direct => naming (snd p)) os -> Forall (fun p => building (snd p)) os.
  Proof. intros H. eapply Forall_impl; [|exact H]. intros p N. left. exact N. Qed.

  Theorem declared command c answer c' a b :
    fair cfg -> ready c -> reads_as_reduction cfg fuel c command a b ->
    t_key a <> t_key b ->
    execute cfg fuel command c = Ok (answer, c') ->
    (exists e, answer = error_text e /\ same_meaning (c_snap c) (c_snap c')) \/
    (answer = [] /\ exists x y, reduces (c_snap c') x y /\
       (forall i, t_concept a = Some i -> x = place (c_snap c) i) /\
       (forall i, t_concept b = Some i -> y = place (c_snap c) i) /\
       only_reduction_of x (c_snap c) (c_snap c')).
  Proof.
    intros F RD (t & c1 & tl & ta & p & ar & nl & na & RT & T1 & T2 & T3 & T4 & T5 & B1 & T6 & B2) K E.
    destruct (command_run cfg fuel _ _ _ _ _ _ F RD E RT)
      as (z & c2 & s1 & s2 & EC & EA & ES1 & ES2 & EX & LK1 & EX1 & _ & ST & LK2 & A2 & CC & FR & OT).
    destruct (okt_parts _ t OT _ _ T2) as [_ Ota]. destruct (okt_parts _ ta Ota _ _ T3) as [Oa Op].
    destruct (okt_parts _ p Op _ _ T4) as [_ Ob]. pose proof (okt_spaced _ a Oa) as Sa. pose proof (okt_spaced _ b Ob) as Sb.
    pose proof (names_build _ (read_names _ _ _ _ RD RT)) as NM.
    pose proof (ready_sane c RD) as S. pose proof (ready_prev c RD) as P.
    destruct (call_declares cfg fuel t tl ta a p ar b _ _ c1 z c2 T1 T2 T3 T4 T5 T6
      (built_in_type cfg c1 s1 _ _ _ ES1 LK1 EX1 B1) (built_in_type cfg c1 s1 _ _ _ ES1 LK1 EX1 B2) EC)
      as [(e & -> & D)|(D & ->)].
    - left. exists e. split; [exact EA|]. apply (building_same_meaning _ (c_delta c2) s2); auto.
      assert (BL : builds c1 c2).
      { destruct D as [D|D]; [apply builds_same, D|].
        exact (execute_reduction_changes cfg fuel a b c1 _ c2 Sa Sb K D). }
      destruct BL as (l & PE & PF). change (Forall (fun p => building (snd p)) (pending c2)).
      rewrite PE. apply Forall_app. auto.
    - right. split; [exact EA|].
      destruct (execute_reduction_changes cfg fuel a b c1 _ c2 Sa Sb K D) as (l & x & y & ch & PE & PF & AF & X & Y).
      exists (rho (c_snap c) x), (rho (c_snap c) y). split; [|split; [|split]].
      + apply reduces_at. unfold red_at. rewrite (same_concepts_at _ _ CC).
        pose proof (last_sets (c_snap c) (c_delta c2) s2 x ch (pending c1 ++ l) S P ST A2) as LS.
        unfold red_at in LS. rewrite LS; [rewrite AF; reflexivity|].
        change (pending c2 = (pending c1 ++ l) ++ [(x, DReduce x ch)]). rewrite PE, app_assoc. reflexivity.
      + intros i T. rewrite (X i T). symmetry. apply place_rho.
      + intros i T. rewrite (Y i T). symmetry. apply place_rho.
      + apply (one_reduction _ (c_delta c2) s2); auto.
        intros id w I. change (In (id, w) (pending c2)) in I. rewrite PE, !in_app_iff in I.
        rewrite Forall_forall in NM, PF. destruct I as [I|[I|[I|[]]]].
        * left. exact (NM _ I).
        * left. exact (PF _ I).
        * right. injection I as <- <-. eauto.
  Qed.

  (** The outcome of a removal. *)
  Definition removal (x : nat) (answer : text) (s s' : snapshot) : Prop :=
    (exists e, answer = error_text e /\ same_meaning s s') \/
    (answer = [] /\ (exists y, reduces s x y) /\ (forall y, ~ reduces s' x y) /\ only_reduction_of x s s').
  Lemma removed command c answer c' t c1 z c2 s1 s2 a x :
    ready c -> read_tree cfg fuel command c = Ok (Val t, c1) ->
    t_concept a = Some (Committed x) ->
    (exists e, z = Fail e /\ c_delta c2 = c_delta c1) \/ (try_removing_reduction cfg a c1 = Ok (Val tt, c2) /\ z = Val []) ->
    answer = match z with Val s => s | Fail e => error_text e end ->
    c_snap c1 = c_snap c ->
    extends (c_snap c) (c_snap c') ->
    linked cfg (c_snap c) false (c_delta c1) s1 -> frame (c_snap c) (c_delta c1) s1 ->
    steps cfg (below (size (c_snap c))) (c_snap c) fuel delta_default (c_delta c2) ->
    apply_directs (dbg cfg) (pending c2) (c_snap c) = Ok s2 ->
    concepts (c_snap c') = concepts s2 -> frame (c_snap c) (c_delta c2) s2 ->
    removal x answer (c_snap c) (c_snap c').
  Proof.
    intros RD RT TA D EA ES1 EX LK1 FR1 ST A2 CC FR.
    pose proof (read_names _ _ _ _ RD RT) as NM0. pose proof (names_build _ NM0) as NM.
    pose proof (ready_sane c RD) as S. pose proof (ready_prev c RD) as P.
    destruct D as [(e & -> & D)|(D & ->)].
    - left. exists e. split; [exact EA|]. apply (building_same_meaning _ (c_delta c2) s2); auto.
      rewrite D. exact NM.
    - right. split; [exact EA|].
      destruct (removing_changes cfg a c1 _ c2 D) as (x' & y & m & PE & X & RM & MR).
      rewrite TA in X. injection X as <-. rewrite ES1 in RM.
      destruct (linked_read _ _ _ _ _ _ _ LK1 RM) as (DM & k & L & SM). 
      split; [|split].
      + exists (rho (c_snap c) y). apply reduces_at.
        rewrite <- (fr_red _ _ _ FR1 x).
        * unfold red_at. change (lookup s1 x = Some k) in L. rewrite L.
          pose proof (sim_spec _ _ _ _ _ SM) as SP. pose proof (sim_red _ _ _ _ _ SM) as SR. rewrite MR in SR.
          cbn in SP. unfold get_reduction. destruct (m_spec m) as [|kd red|]; cbn in SR, SP; try discriminate. subst red.
          destruct (c_spec k) as [|[] red|]; cbn in SP; try discriminate; injection SP; intros; subst; reflexivity.
        * exact DM.
        * intros (id & j & ch & I & _). rewrite Forall_forall in NM0. exact (NM0 _ I).
      + intros w H. apply reduces_at in H. unfold red_at in H. rewrite (same_concepts_at _ _ CC) in H.
        pose proof (last_sets (c_snap c) (c_delta c2) s2 (Committed x) (Remove y) (pending c1) S P ST A2 PE) as LS.
        unfold red_at in LS. change (rho (c_snap c) (Committed x)) with x in LS. rewrite LS in H. discriminate.
      + apply (one_reduction _ (c_delta c2) s2); auto.
        intros id w I. change (In (id, w) (pending c2)) in I. rewrite PE, !in_app_iff in I.
        rewrite Forall_forall in NM. destruct I as [I|[I|[]]].
        * left. exact (NM _ I).
        * right. injection I as <- <-. exists (Committed x), (Remove y). auto.
  Qed.
  Theorem forgotten command c answer c' a x :
    fair cfg -> ready c -> reads_as_forget cfg fuel c command a -> t_concept a = Some (Committed x) ->
    execute cfg fuel command c = Ok (answer, c') ->
    removal x answer (c_snap c) (c_snap c').
  Proof.
    intros F RD (t & c1 & tf & nf & RT & T1 & T2 & T3 & B) TA E.
    destruct (command_run cfg fuel _ _ _ _ _ _ F RD E RT)
      as (z & c2 & s1 & s2 & EC & EA & ES1 & ES2 & EX & LK1 & EX1 & FR1 & ST & LK2 & A2 & CC & FR & OT).
    apply (removed command c answer c' t c1 z c2 s1 s2 a x); auto.
    exact (call_forgets cfg fuel t tf a _ _ c1 z c2 T1 T2 T3 (built_in_type cfg c1 s1 _ _ _ ES1 LK1 EX1 B) TA EC).
  Qed.
  Theorem undeclared command c answer c' a b x :
    fair cfg -> ready c -> reads_as_reduction cfg fuel c command a b -> t_key a = t_key b ->
    t_concept a = Some (Committed x) ->
    execute cfg fuel command c = Ok (answer, c') ->
    removal x answer (c_snap c) (c_snap c').
  Proof.
    intros F RD (t & c1 & tl & ta & p & ar & nl & na & RT & T1 & T2 & T3 & T4 & T5 & B1 & T6 & B2) K TA E.
    destruct (command_run cfg fuel _ _ _ _ _ _ F RD E RT)
      as (z & c2 & s1 & s2 & EC & EA & ES1 & ES2 & EX & LK1 & EX1 & FR1 & ST & LK2 & A2 & CC & FR & OT).
    apply (removed command c answer c' t c1 z c2 s1 s2 a x); auto.
    assert (ER : forall r d, execute_reduction cfg fuel a b c1 = Ok (r, d) ->
      match r with Val u => try_removing_reduction cfg a c1 = Ok (Val tt, d) | Fail e => c_delta d = c_delta c1 end).
    { intros r d X. unfold execute_reduction in X.
      destruct (t_contains b a); [injection X as <- <-; reflexivity|].
      destruct (key_eqb_spec (t_key a) (t_key b)) as [_|N]; [|contradiction].
      destruct r as [[]|e]; [exact X|]. exact (removing_changes cfg a c1 _ d X). }
    destruct (call_declares cfg fuel t tl ta a p ar b _ _ c1 z c2 T1 T2 T3 T4 T5 T6
      (built_in_type cfg c1 s1 _ _ _ ES1 LK1 EX1 B1) (built_in_type cfg c1 s1 _ _ _ ES1 LK1 EX1 B2) EC)
      as [(e & -> & [D|D])|(D & ->)].
    - left. eauto.
    - left. exists e. split; [reflexivity|]. exact (ER _ _ D).
    - right. split; [|reflexivity]. exact (ER _ _ D).
  Qed.
End Results.
