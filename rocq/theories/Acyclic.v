(** Reductions given only to concepts that have none (C14, C21). *)
From Verif Require Import Snapshot Context StoreSpec MapFacts AstFacts StoreFacts StoreInv RangeFacts
  History Sim SimRead Steps Keep Links Meaning Frames StoreLaws.
From Coq Require Import List String Relations PeanoNat Lia.
Import ListNotations.
Local Open Scope zia_scope.

(** Among changes made to the store one after the other, none gives a reduction to a concept that
    has one at that point. *)
Fixpoint first_reductions (dbg : bool) (changes : list (cid * direct)) (s : snapshot) : Prop :=
  match changes with
  | [] => True
  | (id, x) :: rest =>
    match x with
    | DReduce k (Create _) | DReduce k (Update _ _) =>
      forall n m, to_committed s k = Ok n -> ~ reduces s n m
    | _ => True
    end /\
    forall s', apply_direct dbg id x s = Ok s' -> first_reductions dbg rest s'
  end.
Lemma first_app dbg a b : forall s, first_reductions dbg (a ++ b) s ->
  first_reductions dbg a s /\ forall s1, apply_directs dbg a s = Ok s1 -> first_reductions dbg b s1.
Proof.
  induction a as [|[id x] a IH]; intros s; cbn [first_reductions app apply_directs].
  - intros H. split; [exact I|]. intros s1 [= <-]. exact H.
  - intros [H1 H2]. split.
    + split; [exact H1|]. intros s' E. apply (IH s' (H2 s' E)).
    + intros s1 E. apply obind_ok in E. destruct E as (s' & E1 & E2). exact (proj2 (IH s' (H2 s' E1)) s1 E2).
Qed.

(** Contexts reached by commands none of which gives a reduction to a concept that has one. *)
Inductive reachable_first (b : bool) : ctx -> Prop :=
| first_base : reachable_first b base_context
| first_execute cfg fuel t c z c1 r c' :
    fair cfg -> dbg cfg = b -> reachable_first b c ->
    run_command cfg fuel t c = Ok (z, c1) ->
    first_reductions b (d_order (overlay (c_delta c1))) (c_snap c) ->
    execute cfg fuel t c = Ok (r, c') -> reachable_first b c'.
Lemma reachable_first_without b c : reachable_first b c -> reachable b c.
Proof. intros R. induction R; [apply reach_base|eapply reach_execute; eassumption]. Qed.

(** ** Normal forms through the pending changes *)
Lemma linked_red cfg snap h d s k m :
  linked cfg snap h d s -> read_concept cfg snap d k = Ok m ->
  red_at s (rho snap k) = option_map (rho snap) (m_reduction m).
Proof.
  intros LK R. destruct (linked_same _ _ _ _ _ s _ _ LK eq_refl R) as (m' & R' & SR & _).
  destruct (linked_read _ _ _ _ _ _ _ LK R) as (_ & c & L & _).
  unfold renamed in R'. rewrite (read_committed _ _ _ _ L) in R'. injection R' as <-.
  pose proof (sr_reduction _ _ _ SR) as E. unfold red_at. rewrite L. cbn in E.
  destruct (get_reduction c), (m_reduction m); cbn in *; unfold renamed in *; congruence.
Qed.
Lemma normal_form_end cfg snap h d s : linked cfg snap h d s ->
  forall fuel r nf, get_normal_form cfg snap d fuel r = Ok nf ->
  forall n, clos_refl_trans nat (reduces s) (rho snap r) n -> red_at s n = None ->
    match nf with
    | None => n = rho snap r
    | Some x => dom snap (d_num (overlay d)) x /\ n = rho snap x
    end.
Proof.
  intros LK. induction fuel as [|fuel IH]; intros r nf E n P N; [discriminate|].
  cbn in E. apply obind_ok in E. destruct E as (m & R & E).
  pose proof (linked_red _ _ _ _ _ _ _ LK R) as RD.
  destruct (m_reduction m) as [q|]; cbn in RD.
  - apply obind_ok in E. destruct E as (v & E & E'). injection E' as <-.
    apply clos_rt_rt1n in P. destruct P as [|n1 n P1 P]; [congruence|].
    apply reduces_at in P1. rewrite RD in P1. injection P1 as <-. apply clos_rt1n_rt in P.
    specialize (IH q v E n P N). destruct v as [x|]; [exact IH|]. split; [|exact IH].
    destruct fuel as [|f]; [discriminate|]. cbn in E. apply obind_ok in E. destruct E as (mq & Rq & _).
    apply (linked_read _ _ _ _ _ _ _ LK Rq).
  - injection E as <-. apply clos_rt_rt1n in P. destruct P as [|n1 n P1 P]; [reflexivity|].
    apply reduces_at in P1. congruence.
Qed.

(** ** One more reduction *)
Definition acyclic (s : snapshot) : Prop := forall n, ~ clos_trans nat (reduces s) n n.
Lemma acyclic_less s s' : (forall n r, reduces s' n r -> reduces s n r) -> acyclic s -> acyclic s'.
Proof.
  intros L A n P. apply (A n). revert P. generalize n at 1 3 as m. intros m P.
  induction P; [apply t_step; auto|eapply t_trans; eauto].
Qed.
Lemma acyclic_add s s' x y :
  (forall n r, reduces s' n r -> reduces s n r \/ n = x /\ r = y) ->
  acyclic s -> ~ clos_refl_trans nat (reduces s) y x -> acyclic s'.
Proof.
  intros L A N.
  assert (K : forall a b, clos_trans nat (reduces s') a b ->
     clos_trans nat (reduces s) a b \/
     clos_refl_trans nat (reduces s) a x /\ clos_refl_trans nat (reduces s) y b).
  { intros a b P. apply clos_trans_t1n in P. induction P as [a b P|a c b P1 P IH].
    - destruct (L _ _ P) as [Q|[-> ->]]; [left; apply t_step, Q|right; split; apply rt_refl].
    - destruct (L _ _ P1) as [Q|[-> ->]].
      + destruct IH as [IH|[I1 I2]].
        * left. eapply t_trans; [apply t_step, Q|exact IH].
        * right. split; [eapply rt_trans; [apply rt_step, Q|exact I1]|exact I2].
      + destruct IH as [IH|[I1 _]]; [|destruct (N I1)].
        right. split; [apply rt_refl|]. clear - IH. induction IH; [apply rt_step; assumption|eapply rt_trans; eauto]. }
  intros n P. destruct (K _ _ P) as [Q|[Q1 Q2]]; [exact (A n Q)|]. apply N. eapply rt_trans; eassumption.
Qed.

Definition tidy_reductions (s : snapshot) : Prop := acyclic s /\ listed_reductions_are_real s.
Lemma step_tidy_reductions cfg snap fuel :
  step_keeps cfg snap fuel false
    (fun d s => first_reductions (dbg cfg) (d_order (overlay d)) snap -> tidy_reductions s).
Proof.
  intros d1 s1 x id d2 s2 LK A ST LG G _ U AD _ IH OK.
  destruct (update_order _ _ _ _ (steps_single _ _ _ _ _ _ ST eq_refl) U) as [EO _].
  rewrite EO in OK. destruct (first_app _ _ _ _ OK) as [OK1 OK2]. specialize (OK2 _ A).
  destruct OK2 as [OKx _]. destruct (IH OK1) as [AC LR]. clear IH OK OK1.
  pose proof (lk_sane _ _ _ _ _ LK) as S1. pose proof (lk_prev _ _ _ _ _ LK) as PV.
  assert (LR' : forall n r, In n (from_at s1 r) -> red_at s1 n = Some r).
  { intros n r I. apply reduces_at, LR, from_at_spec, I. }
  assert (LT : red_at s1 (List.length (concepts s1)) = None).
  { unfold red_at. rewrite lookup_self. reflexivity. }
  (* the concept that gets a reduction has none and is not reached from its reduction *)
  assert (NEW : forall k ch y nk ny, x = DReduce k ch -> ch = Create y \/ (exists z, ch = Update z y) ->
     to_committed s1 k = Ok nk -> to_committed s1 y = Ok ny -> nk <> ny ->
     red_at s1 nk = None /\ ~ clos_refl_trans nat (reduces s1) ny nk).
  { intros k ch y nk ny -> CH Tk Ty NE.
    assert (RK : red_at s1 nk = None).
    { destruct (red_at s1 nk) as [m|] eqn:E; [|reflexivity]. apply reduces_at in E.
      destruct CH as [->|[z ->]]; destruct (OKx _ _ Tk E). }
    split; [exact RK|]. intros P.
    assert (GK : below (size snap) k /\ below (size snap) y).
    { destruct CH as [->|[z ->]]; cbn in G; tauto. }
    destruct (com_rho snap s1 _ PV k nk (proj1 GK) Tk) as [-> Dk].
    destruct (com_rho snap s1 _ PV y ny (proj2 GK) Ty) as [-> Dy].
    inversion LG as [| | | | | | | |c m r nf rc NF NN R NR RC RR EQ|c m l r xx B1 B2 K1 K2 R CD EX|]; subst.
    - destruct CH as [CH|[? CH]]; discriminate CH.
    - assert (r = y).
      { destruct CH as [CH|[z CH]]; destruct nf; congruence. }
      subst r. pose proof (normal_form_end _ _ _ _ _ LK _ _ _ NF _ P RK) as E.
      destruct nf as [w|]; [|exact (NE E)]. destruct E as [Dw E].
      apply NN. f_equal. eapply rho_inj; [exact Dw|exact Dk|congruence].
    - destruct (compose_delta_shape _ _ _ _ _ CD) as (? & E). discriminate E. }
  destruct (step_red_effect _ _ _ _ _ (sane_numbers s1 S1) AD) as (red & from & E & E1 & E2).
  assert (RS : forall n r, reduces s2 n r <-> red n = Some r).
  { intros n r. rewrite reduces_at, E1. tauto. }
  assert (FS : forall r n, lists_reduction_from s2 r n <-> In n (from r)).
  { intros r n. rewrite from_at_spec, E2. tauto. }
  unfold tidy_reductions, listed_reductions_are_real.
  destruct E as [x H1 H2|r nr T Lr|k y nk ny T1 T2 NE Ly|k z y nk nz ny T1 T2 T3 ND Ly|k y nk ny T1 T2 NE].
  - split; [|intros n r H; apply RS, LR', FS, H].
    apply (acyclic_less s1); [|exact AC]. intros n r H. apply RS in H. apply reduces_at, H.
  - split.
    + apply (acyclic_add s1 s2 (List.length (concepts s1)) nr); [|exact AC|].
      * intros n q H. apply RS in H. destruct (Nat.eqb_spec n (List.length (concepts s1))) as [->|].
        -- right. split; congruence.
        -- left. apply reduces_at, H.
      * assert (NL : nr < List.length (concepts s1)).
        { cbn in G. destruct (com_rho snap s1 _ PV r nr G T) as [-> D]. apply rho_lt in D.
          pose proof (lk_size _ _ _ _ _ LK) as Z. unfold size in *. lia. }
        intros P. apply clos_rt_rtn1 in P. inversion P as [EQ|m q P1 P2 EQ]; [lia|].
        apply (red_range s1 S1) in P1. unfold size in P1. lia.
    + intros n q H. apply FS in H. apply RS.
      destruct (Nat.eqb_spec n (List.length (concepts s1))) as [->|Nn].
      * destruct (Nat.eqb_spec q (List.length (concepts s1))); [destruct H|].
        destruct (Nat.eqb_spec q nr); [congruence|]. apply LR' in H. congruence.
      * destruct (Nat.eqb_spec q (List.length (concepts s1))); [destruct H|]. apply LR'.
        destruct (Nat.eqb_spec q nr); [|exact H]. apply (sadd_in _ Nat.eqb_spec) in H.
        destruct H as [->|H]; [contradiction|exact H].
  - destruct (NEW k (Create y) y nk ny eq_refl (or_introl eq_refl) T1 T2 NE) as [RK NP]. split.
    + apply (acyclic_add s1 s2 nk ny); [|exact AC|exact NP].
      intros n q H. apply RS in H. destruct (Nat.eqb_spec n nk) as [->|]; [right; split; congruence|].
      left. apply reduces_at, H.
    + intros n q H. apply FS in H. apply RS.
      assert (I : n = nk /\ q = ny \/ In n (from_at s1 q)).
      { destruct (Nat.eqb_spec q ny); [|auto]. apply (sadd_in _ Nat.eqb_spec) in H. tauto. }
      destruct I as [[-> ->]|I]; [rewrite Nat.eqb_refl; reflexivity|]. apply LR' in I.
      destruct (Nat.eqb_spec n nk) as [->|]; [congruence|exact I].
  - assert (NE : nk <> ny). { rewrite !NoDup_cons_iff in ND. cbn in ND. intros ->. tauto. }
    destruct (NEW k (Update z y) y nk ny eq_refl (or_intror (ex_intro _ z eq_refl)) T1 T3 NE) as [RK NP]. split.
    + apply (acyclic_add s1 s2 nk ny); [|exact AC|exact NP].
      intros n q H. apply RS in H. destruct (Nat.eqb_spec n nk) as [->|]; [right; split; congruence|].
      left. apply reduces_at, H.
    + intros n q H. apply FS in H. apply RS.
      assert (I : n = nk /\ q = ny \/ In n (from_at s1 q)).
      { destruct (Nat.eqb_spec q ny); [apply (sadd_in _ Nat.eqb_spec) in H; tauto|].
        destruct (Nat.eqb_spec q nz); [apply (sdel_in _ Nat.eqb_spec) in H; tauto|auto]. }
      destruct I as [[-> ->]|I]; [rewrite Nat.eqb_refl; reflexivity|]. apply LR' in I.
      destruct (Nat.eqb_spec n nk) as [->|]; [congruence|exact I].
  - split.
    + apply (acyclic_less s1); [|exact AC]. intros n q H. apply RS in H.
      destruct (Nat.eqb_spec n nk); [discriminate|]. apply reduces_at, H.
    + assert (RK : red_at s1 nk = Some ny).
      { inversion LG as [| | | | | | |c m r R MR EQ|c m r nf rc NF NN R NR RC RR EQ|c m l r xx B1 B2 K1 K2 R CD EX|]; subst.
        - cbn in G. destruct (com_rho snap s1 _ PV k nk (proj1 G) T1) as [-> _].
          destruct (com_rho snap s1 _ PV y ny (proj2 G) T2) as [-> _].
          rewrite (linked_red _ _ _ _ _ _ _ LK R), MR. reflexivity.
        - destruct nf; discriminate.
        - destruct (compose_delta_shape _ _ _ _ _ CD) as (? & X). discriminate X. }
      intros n q H. apply FS in H. apply RS.
      assert (I : In n (from_at s1 q) /\ (q = ny -> n <> nk)).
      { destruct (Nat.eqb_spec q ny); [apply (sdel_in _ Nat.eqb_spec) in H; tauto|]. split; [exact H|congruence]. }
      destruct I as [I J]. apply LR' in I. destruct (Nat.eqb_spec n nk) as [->|]; [|exact I].
      rewrite RK in I. injection I as <-. destruct (J eq_refl eq_refl).
Qed.

Lemma base_tidy : tidy_reductions (c_snap base_context).
Proof.
  assert (RD : sane (c_snap base_context)) by apply base_ready.
  assert (K : forallb (fun n => match red_at (c_snap base_context) n with
                                | Some r => match red_at (c_snap base_context) r with None => true | _ => false end
                                | None => true end &&
                                forallb (fun m => option_eqb Nat.eqb (red_at (c_snap base_context) m) (Some n))
                                        (from_at (c_snap base_context) n))
                      (seq 0 (List.length (concepts (c_snap base_context)))) = true) by (vm_compute; reflexivity).
  rewrite forallb_forall in K.
  assert (IN : forall n, n < size (c_snap base_context) ->
    In n (seq 0 (List.length (concepts (c_snap base_context))))) by (intros n H; apply in_seq; unfold size in H; lia).
  split.
  - intros n P. apply clos_trans_t1n in P.
    assert (E : exists r, red_at (c_snap base_context) n = Some r /\
      ((exists q, red_at (c_snap base_context) r = Some q) \/ r = n)).
    { inversion P as [r P1|r q P1 P2]; subst; apply reduces_at in P1; [eauto|].
      exists r. split; [exact P1|]. destruct P2 as [q P2|q w P2 _]; apply reduces_at in P2; eauto. }
    destruct E as (r & E & Q). pose proof E as E'. apply reduces_at, (red_range _ RD) in E'.
    specialize (K n (IN _ (proj1 E'))). rewrite E in K.
    destruct Q as [[q Q]|Q].
    + rewrite Q in K. discriminate.
    + subst r. rewrite E in K. discriminate.
  - intros n r H. apply from_at_spec in H. apply reduces_at.
    assert (L : r < size (c_snap base_context)).
    { unfold from_at in H. destruct (lookup _ r) eqn:L; [apply lookup_lt in L; exact L|destruct H]. }
    specialize (K r (IN _ L)). apply andb_prop in K. destruct K as [_ K]. rewrite forallb_forall in K.
    specialize (K n H). destruct (red_at (c_snap base_context) n); [|discriminate]. apply Nat.eqb_eq in K. congruence.
Qed.
Lemma reachable_tidy b c : reachable_first b c -> tidy_reductions (c_snap c).
Proof.
  intros R. induction R as [|cfg fuel t c z c1 r c' F D R IH E1 OK E]; [apply base_tidy|].
  pose proof (reachable_ready _ _ (reachable_first_without _ _ R)) as RD.
  destruct (execute_run cfg fuel t c r c' F RD E) as (z' & c1' & E1' & _ & _ & ST & G & L & A & _).
  rewrite E1 in E1'. injection E1' as <- <-.
  destruct (apply_split _ _ _ _ (ready_sane c RD) L G A) as (s1 & A1 & C1 & C2 & _). subst b.
  destruct (steps_keep cfg (c_snap c) fuel false _ (c_delta c1) s1 (ready_sane c RD) (ready_prev c RD)
              ST A1 ltac:(discriminate) (step_tidy_reductions cfg (c_snap c) fuel) (fun _ => IH)) as [_ K].
  specialize (K OK). unfold tidy_reductions, acyclic, listed_reductions_are_real, reduces, lists_reduction_from, lookup in *.
  rewrite C1. exact K.
Qed.

(** Running commands and checking that they declare reductions only where there are none. *)
Fixpoint first_reductions_b (dbg : bool) (changes : list (cid * direct)) (s : snapshot) : bool :=
  match changes with
  | [] => true
  | (id, x) :: rest =>
    match x with
    | DReduce k (Create _) | DReduce k (Update _ _) =>
      match to_committed s k with Ok n => match red_at s n with None => true | _ => false end | _ => true end
    | _ => true
    end && match apply_direct dbg id x s with Ok s' => first_reductions_b dbg rest s' | _ => true end
  end.
Lemma first_reductions_ok dbg changes : forall s,
  first_reductions_b dbg changes s = true -> first_reductions dbg changes s.
Proof.
  induction changes as [|[id x] rest IH]; intros s; cbn [first_reductions_b first_reductions]; [auto|].
  intros H. apply andb_prop in H. destruct H as [H1 H2]. split.
  - destruct x as [|k ch|k ch|]; auto. destruct ch; auto; intros n m T RD; rewrite T in H1;
      apply reduces_at in RD; rewrite RD in H1; discriminate.
  - intros s' E. rewrite E in H2. exact (IH s' H2).
Qed.
Fixpoint run_first (cfg : config) (fuel : nat) (cmds : list text) (c : ctx) : option ctx :=
  match cmds with
  | [] => Some c
  | t :: cmds =>
    match run_command cfg fuel t c with
    | Ok (_, c1) =>
      if first_reductions_b (dbg cfg) (d_order (overlay (c_delta c1))) (c_snap c) then
        match execute cfg fuel t c with Ok (_, c') => run_first cfg fuel cmds c' | _ => None end
      else None
    | _ => None
    end
  end.
Lemma run_first_reachable cfg fuel cmds : fair cfg -> forall c c',
  reachable_first (dbg cfg) c -> run_first cfg fuel cmds c = Some c' -> reachable_first (dbg cfg) c'.
Proof.
  intros F. induction cmds as [|t cmds IH]; intros c c' R E; [injection E as <-; exact R|].
  cbn [run_first] in E. destruct (run_command cfg fuel t c) as [[z c1]| | |] eqn:E1; try discriminate.
  destruct (first_reductions_b _ _ _) eqn:K; [|discriminate].
  destruct (execute cfg fuel t c) as [[r c2]| | |] eqn:E2; try discriminate.
  apply (IH c2 c'); [|exact E]. eapply first_execute; eauto. apply first_reductions_ok, K.
Qed.

