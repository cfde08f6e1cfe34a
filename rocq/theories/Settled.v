(** What a new word stands for: a concept that has neither parts nor a reduction. *)
From Verif Require Import Parser Context StoreSpec NameSpec MapFacts AstFacts StoreFacts StoreInv RangeFacts
  History Sim SimRead Steps Keep Links Meaning Names OneName Frames StoreLaws Pending Quiet Naming OwnTrees.
From Coq Require Import List String Relations Permutation PeanoNat Lia.
Import ListNotations.
Local Open Scope zia_scope.

Section Settled.
  Variables (cfg : config) (snap : snapshot) (fuel : nat).
  Hypothesis S : sane snap.
  Hypothesis P : prev_unc snap = [].
  Local Notation rho := (rho snap).
  Local Notation n0 := (size snap).
  Local Notation steps := (steps cfg (below n0) snap fuel).
  Local Notation amounts_to := (amounts_to cfg snap fuel).

  (** The right parts of new compositions are new constants without a reduction, and those of no other
      new composition; nothing older has got parts or a reduction. *)
  Definition settled (s : snapshot) : Prop :=
    (forall i l r, le n0 i -> comp_at s i = Some (l, r) -> le n0 r /\ char_at s r = Some Constant /\ red_at s r = None /\
       (forall y, ~ In r (from_at s y)) /\ forall j l', le n0 j -> comp_at s j = Some (l', r) -> j = i) /\
    (forall i, lt i n0 -> comp_at s i = comp_at snap i /\ red_at s i = red_at snap i /\
       (forall ch, char_at snap i = Some ch -> char_at s i = Some ch) /\
       forall y, In i (from_at s y) -> In i (from_at snap y)).
  Lemma red_some_lt s i k : red_at s i = Some k -> lt i (size s).
  Proof. unfold red_at, size. destruct (lookup s i) eqn:L; [|discriminate]. intros _. apply (lookup_lt _ _ _ L). Qed.
  Lemma char_some_lt s i k : char_at s i = Some k -> lt i (size s).
  Proof. unfold char_at, size. destruct (lookup s i) eqn:L; [|discriminate]. intros _. apply (lookup_lt _ _ _ L). Qed.
  Lemma listed_lt s i y : sane s -> In i (from_at s y) -> lt i (size s).
  Proof.
    intros S1 J. unfold from_at in J. destruct (lookup s y) as [c|] eqn:L; [|destruct J].
    destruct (proj1 (sane_ids s S1) y c L) as (_ & _ & _ & O & _). exact (O _ J).
  Qed.
  Lemma comp_parts_lt s i l r : sane s -> comp_at s i = Some (l, r) -> lt l (size s) /\ lt r (size s).
  Proof.
    intros S1 E. unfold comp_at in E. destruct (lookup s i) as [c|] eqn:L; [|discriminate].
    pose proof (proj1 (sane_ids s S1)) as K. unfold get_composition in E. destruct (c_spec c) as [|[a b fv bv|] red|] eqn:X; try discriminate.
    injection E as -> ->. destruct (K i c L) as (_ & _ & _ & _ & O). unfold okspec in O. rewrite X in O. exact (proj1 O).
  Qed.
  Lemma settled_step d1 x id d2 s1 s2 :
    steps delta_default d1 -> legit cfg snap fuel d1 x -> good_direct (below n0) x -> delta_update x d1 = Ok (id, d2) ->
    amounts_to d1 s1 -> amounts_to d2 s2 -> apply_direct (dbg cfg) id x s1 = Ok s2 -> naming x -> settled s1 -> settled s2.
  Proof.
    intros ST LG G U AM AM2 AD NM [H1 H2]. pose proof (proj1 (amounts_linked cfg snap fuel S P _ _ AM)) as LK.
    pose proof (lk_sane _ _ _ _ _ LK) as S1. pose proof (sane_numbers _ S1) as W. pose proof (lk_prev _ _ _ _ _ LK) as PV.
    pose proof (lk_size _ _ _ _ _ LK) as Z.
    assert (CR : forall j k, below n0 j -> to_committed s1 j = Ok k -> k = rho j).
    { intros j k B T. apply (com_rho snap s1 _ PV j k B T). }
    assert (RED : forall i, lt i (size s1) -> red_at s2 i = red_at s1 i).
    { intros i Li. destruct (step_red_effect _ _ _ _ _ W AD) as (red & from & RE & RA & _). rewrite RA.
      destruct RE as [x _ _|r nr T L|a b na nb Ta Tb N L|a b c na nb nc Ta Tb Tc N L|a b na nb Ta Tb N]; try destruct NM; [reflexivity|].
      unfold size in Li. destruct (Nat.eqb_spec i (List.length (concepts s1))); [lia|reflexivity]. }
    assert (FROM : forall i y, lt i (size s1) -> In i (from_at s2 y) -> In i (from_at s1 y)).
    { intros i y Li. destruct (step_red_effect _ _ _ _ _ W AD) as (red & from & RE & _ & FA). rewrite FA.
      destruct RE as [x _ _|r nr T L|a b na nb Ta Tb N L|a b c na nb nc Ta Tb Tc N L|a b na nb Ta Tb N]; try destruct NM; [auto|].
      unfold size in Li. destruct (Nat.eqb_spec y (List.length (concepts s1))); [intros []|].
      destruct (Nat.eqb_spec y nr); [|auto]. rewrite (sadd_in _ Nat.eqb_spec). intros [J|J]; [lia|exact J]. }
    assert (ZB : le n0 (size s1)) by lia.
    destruct (step_comp _ _ _ _ _ S1 (good_now _ _ _ _ _ _ LK G) AD) as [(K & V & NC)|(c & a & b & CC & K & V)].
    - intros c a b ->. destruct NM.
    - split.
      + intros i l r Li E. rewrite K in E. destruct (H1 _ _ _ Li E) as (Lr & Cr & Rr & Fr & Ur). pose proof (char_some_lt _ _ _ Cr) as Lz.
        split; [exact Lr|]. split; [apply V, Cr|]. split; [rewrite RED; [exact Rr|exact Lz]|]. split; [intros y J; exact (Fr y (FROM _ _ Lz J))|].
        intros j l' Lj Ej. rewrite K in Ej. exact (Ur j l' Lj Ej).
      + intros i Li. destruct (H2 i Li) as (A & B & C & Fi). rewrite K, RED by lia. split; [exact A|]. split; [exact B|].
        split; [intros ch E; apply V, C, E|]. intros y J. apply Fi, (FROM i y ltac:(lia) J).
    - assert (NEW : exists nc r0 u comp, c = rho comp /\ comp = Uncommitted u /\ nc = comp /\ b = size s1 /\ last_is d1 comp (DNew (NReducesTo r0)) /\
        to_committed s1 comp = Ok c /\ (exists nd, x = DNew nd /\ forall id, m_spec (MUnc (concept_of_new id nd)) = Abstract (Leaf Constant) None)).
      { destruct CC as [l r nl nr Tl Tr N|k r cc nc nr Tk Tr N|k l cc nc nl Tk Tl N|k cc nc Tk|k ch l r nc nl nr Tk Tl Tr N A]; try destruct NM.
        - destruct k as [n|u]; [destruct NM|]. destruct cc; [destruct NM|]. inversion LG; subst.
          + exists (Uncommitted u), r, u, (Uncommitted u). split; [apply CR; [exact I|exact Tk]|]. do 5 (split; [auto|]). eexists. split; [reflexivity|]. intros id'. reflexivity.
          + match goal with H : compose_delta _ _ _ _ = Ok _ |- _ => apply compose_delta_shape in H; destruct H as (? & [=]) end.
        - destruct k as [n|u]; [destruct NM|]. destruct cc; [destruct NM|]. inversion LG; subst.
          + exists (Uncommitted u), r, u, (Uncommitted u). split; [apply CR; [exact I|exact Tk]|]. do 5 (split; [auto|]). eexists. split; [reflexivity|]. intros id'. reflexivity.
          + match goal with H : compose_delta _ _ _ _ = Ok _ |- _ => apply compose_delta_shape in H; destruct H as (? & [=]) end. }
      destruct NEW as (nc & r0 & u & comp & Ec & -> & _ & -> & LA & Tc & nd & -> & SP).
      assert (Lc : le n0 c) by (rewrite Ec; cbn; lia).
      assert (RC : red_at s1 c <> None).
      { destruct (last_new cfg snap fuel d1 s1 _ _ S P ST (proj2 AM) LA) as (v & s0 & cc & _ & T0 & Z0 & LC & S0 & G0 & A0 & SPL).
        rewrite Tc in T0. injection T0 as ->. unfold red_at. rewrite LC. cbn in SPL.
        destruct (c_spec cc) as [|[] ?|] eqn:X; cbn in SPL; try discriminate. injection SPL as -> ->. unfold get_reduction. rewrite X. discriminate. }
      assert (NX : char_at s2 (size s1) = Some Constant /\ red_at s2 (size s1) = None /\ forall y, ~ In (size s1) (from_at s2 y)).
      { destruct (update_order _ _ _ _ (steps_single _ _ _ _ _ _ ST eq_refl) U) as [EO _].
        destruct (last_new cfg snap fuel d2 s2 id nd S P (proj1 AM2) (proj2 AM2) ltac:(eexists; exact EO)) as (v & s0 & cc & _ & _ & Z0 & LC & _ & _ & _ & SPL).
        pose proof AD as AD'. apply apply_direct_effect in AD'; [|exact W]. destruct AD' as (_ & us & _ & O).
        pose proof (size_base _ _ _ _ O) as Z2. cbn in Z2. assert (size s0 = size s1) as E0 by lia. rewrite E0 in LC.
        rewrite SP in SPL. unfold char_at, red_at. rewrite LC.
        destruct (c_spec cc) as [|[] ?|] eqn:X; cbn in SPL; try discriminate. injection SPL as -> ->. unfold get_reduction. rewrite X. split; [reflexivity|]. split; [reflexivity|].
        intros y J. destruct (step_red_effect _ _ _ _ _ W AD) as (red & from & RE & _ & FA). rewrite FA in J.
        remember (DNew nd) as x eqn:Ex. destruct RE as [x _ _|r nr T L|p q na nb Ta Tb N L|p q e na nb ne Ta Tb Tc' N L|p q na nb Ta Tb N]; try discriminate Ex.
        - apply (listed_lt s1 _ y S1) in J. lia.
        - injection Ex as <-. specialize (SP id). cbn in SP. discriminate SP. }
      split.
      + intros i l r Li E. rewrite K in E. destruct (Nat.eqb_spec i c) as [->|NE].
        * injection E as <- <-. split; [exact ZB|]. destruct NX as (N1 & N2 & N3). split; [exact N1|]. split; [exact N2|]. split; [exact N3|].
          intros j l' Lj Ej. rewrite K in Ej. destruct (Nat.eqb_spec j c) as [->|]; [reflexivity|].
          destruct (comp_parts_lt s1 _ _ _ S1 Ej) as [_ X]. lia.
        * destruct (H1 _ _ _ Li E) as (Lr & Cr & Rr & Fr & Ur). pose proof (char_some_lt _ _ _ Cr) as Lz.
          assert (r <> c) by congruence. split; [exact Lr|]. split; [apply V; auto|].
          split; [rewrite RED; [exact Rr|exact Lz]|]. split; [intros y J; exact (Fr y (FROM _ _ Lz J))|].
          intros j l' Lj Ej. rewrite K in Ej. destruct (Nat.eqb_spec j c) as [->|]; [injection Ej as _ Ej; lia|exact (Ur j l' Lj Ej)].
      + intros i Li. destruct (H2 i Li) as (A & B & C & Fi). rewrite K, RED by lia. destruct (Nat.eqb_spec i c) as [->|NE]; [lia|].
        split; [exact A|]. split; [exact B|].
        split; [intros ch E; apply V; [exact NE|apply C, E]|]. intros y J. apply Fi, (FROM i y ltac:(lia) J).
  Qed.
  Lemma all_settled d : steps delta_default d -> forall s, amounts_to d s -> Forall (fun p => naming (snd p)) (d_order (overlay d)) -> settled s.
  Proof.
    intros ST. remember delta_default as d0 eqn:E0. induction ST as [d|d d1 x id d2 ST IH LG G U]; intros s AM NM; subst.
    - destruct AM as [_ A]. injection A as <-. split; [|auto]. intros i l r Li E. exfalso.
      unfold comp_at in E. destruct (lookup snap i) as [c|] eqn:L; [|discriminate]. apply lookup_lt in L. unfold size in Li. lia.
    - specialize (IH eq_refl). destruct (amounts_step cfg snap fuel d1 x id d2 s ST U AM) as (s1 & A1 & AD).
      destruct (update_order _ _ _ _ (steps_single _ _ _ _ _ _ ST eq_refl) U) as [EO _]. rewrite EO in NM. apply Forall_app in NM. destruct NM as [N1 N2].
      apply (settled_step d1 x id d2 s1 s ST LG G U A1 AM AD); [inversion N2; assumption|exact (IH s1 A1 N1)].
  Qed.
  Lemma older_strings d : steps delta_default d -> forall s, amounts_to d s -> forall w str,
    aget text_eqb w (string_map s) = Some str -> lt str n0 -> aget text_eqb w (string_map snap) = Some str.
  Proof.
    intros ST. remember delta_default as d0 eqn:E0. induction ST as [d|d d1 x id d2 ST IH LG G U]; intros s AM w str; subst.
    - destruct AM as [_ A]. injection A as <-. auto.
    - specialize (IH eq_refl). destruct (amounts_step cfg snap fuel d1 x id d2 s ST U AM) as (s1 & A1 & AD).
      pose proof (proj1 (amounts_linked cfg snap fuel S P _ _ A1)) as LK. pose proof (lk_size _ _ _ _ _ LK) as Z.
      apply apply_direct_effect in AD; [|exact (sane_numbers _ (lk_sane _ _ _ _ _ LK))]. destruct AD as ((Q & _) & _). rewrite Q.
      destruct x as [[t| | | | | | |]|? ?|? ?|?]; try apply (IH s1 A1 w str). rewrite (aget_aset _ text_eqb_spec).
      destruct (text_eqb_spec w t) as [->|]; [|apply (IH s1 A1 w str)]. intros [= <-] L. unfold size in *. lia.
  Qed.
  (** A word that leads to something old led to it before. *)
  Lemma older_name d s w y : amounts_to d s -> Forall (fun p => naming (snd p)) (d_order (overlay d)) ->
    found_under s w y -> lt y n0 -> found_under snap w y.
  Proof.
    intros AM NM (str & comp & lab & A & PT & C & B) Ly. destruct (all_settled d (proj1 AM) s AM NM) as [H1 H2].
    destruct (amounts_linked cfg snap fuel S P _ _ AM) as (LK & _ & EX & _).
    apply composed_at in C. assert (Lc : lt comp n0).
    { destruct (Nat.lt_ge_cases comp n0) as [Lc|Lc]; [exact Lc|]. destruct (H1 _ _ _ Lc C) as (Lr & _). lia. }
    destruct (H2 _ Lc) as (A2 & _). rewrite C in A2. symmetry in A2. destruct (comp_parts_lt snap _ _ _ S A2) as [Ll _].
    assert (X : clos_trans nat (lists_reduction_from snap) str comp /\ lt str n0).
    { apply clos_trans_tn1 in PT. clear C A2 A. revert Lc.
      assert (ST : forall p q, lt q n0 -> lists_reduction_from s p q -> lists_reduction_from snap p q /\ lt p n0).
      { intros p q Lq J. apply from_at_spec in J. apply (proj2 (proj2 (proj2 (H2 q Lq)))) in J. split; [apply from_at_spec, J|].
        unfold from_at in J. destruct (lookup snap p) eqn:L; [|destruct J]. apply lookup_lt in L. exact L. }
      induction PT as [q J|p q J PT IH]; intros Lq.
      - destruct (ST _ _ Lq J) as [J' Lp]. split; [apply t_step, J'|exact Lp].
      - destruct (ST _ _ Lq J) as [J' Lp]. destruct (IH Lp) as [K Ls]. split; [eapply t_trans; [exact K|apply t_step, J']|exact Ls]. }
    destruct X as [PT' Ls]. exists str, comp, lab. split; [exact (older_strings d (proj1 AM) s AM w str A Ls)|]. split; [exact PT'|].
    split; [apply composed_at, A2|]. apply (built_in_known snap s EX lab CLabel); [unfold size in Ll; exact Ll|exact B].
  Qed.
  (** A word that is new in a command. *)
  Lemma new_word d s w x : amounts_to d s -> Forall (fun p => naming (snd p)) (d_order (overlay d)) ->
    found_under s w x -> le n0 x ->
    char_at s x = Some Constant /\ red_at s x = None /\ forall y, ~ In x (from_at s y).
  Proof.
    intros AM NM (str & comp & lab & _ & _ & C & _) Lx. destruct (all_settled d (proj1 AM) s AM NM) as [H1 H2].
    apply composed_at in C. destruct (Nat.lt_ge_cases comp n0) as [Lc|Lc]; [|destruct (H1 _ _ _ Lc C) as (_ & X1 & X2 & X3 & _); auto].
    destruct (H2 _ Lc) as (A & _). rewrite C in A. symmetry in A. apply (comp_parts_lt snap _ _ _ S) in A. lia.
  Qed.
  (** A word that was known. *)
  Lemma old_word d s n : amounts_to d s -> Forall (fun p => naming (snd p)) (d_order (overlay d)) -> lt n n0 ->
    comp_at s n = comp_at snap n /\ red_at s n = red_at snap n /\ (elementary snap n -> elementary s n) /\
    forall y, In n (from_at s y) -> In n (from_at snap y).
  Proof.
    intros AM NM L. destruct (all_settled d (proj1 AM) s AM NM) as [_ H2]. destruct (H2 _ L) as (A & B & C & G).
    split; [exact A|]. split; [exact B|]. split; [|exact G]. intros [E1 E2]. split; [congruence|]. intros V.
    destruct (amounts_linked cfg snap fuel S P _ _ AM) as (_ & _ & (X1 & X2 & X3 & X4) & _).
    destruct (lookup_some snap n L) as (c & Lk). destruct (c_spec c) as [cc|[a b fv bv|ch] red|t] eqn:SP.
    - destruct (X3 n cc) as (c' & L' & S'); [exists c; auto|]. unfold char_at in V. rewrite L', S' in V. discriminate.
    - unfold comp_at, get_composition in E1. rewrite Lk, SP in E1. discriminate.
    - assert (Y : char_at snap n = Some ch) by (unfold char_at; rewrite Lk, SP; reflexivity). pose proof (C _ Y) as Y2. rewrite V in Y2. injection Y2 as <-. exact (E2 Y).
    - destruct (X2 n t) as (c' & L' & S'); [exists c; auto|]. unfold char_at in V. rewrite L', S' in V. discriminate.
  Qed.
  (** New reductions are listed and lead to new concepts. *)
  Lemma new_listed d : steps delta_default d -> forall s, amounts_to d s -> Forall (fun p => naming (snd p)) (d_order (overlay d)) ->
    forall i y, le n0 i -> In i (from_at s y) -> red_at s i = Some y /\ le n0 y.
  Proof.
    intros ST. remember delta_default as d0 eqn:E0. induction ST as [d|d d1 x id d2 ST IH LG G U]; intros s AM NM i y Li J; subst.
    - destruct AM as [_ A]. injection A as <-. apply (listed_lt snap _ y S) in J. lia.
    - specialize (IH eq_refl). destruct (amounts_step cfg snap fuel d1 x id d2 s ST U AM) as (s1 & A1 & AD).
      destruct (update_order _ _ _ _ (steps_single _ _ _ _ _ _ ST eq_refl) U) as [EO _]. rewrite EO in NM. apply Forall_app in NM. destruct NM as [N1 N2].
      assert (NX : naming x) by (inversion N2; assumption). specialize (IH s1 A1 N1 i).
      pose proof (proj1 (amounts_linked cfg snap fuel S P _ _ A1)) as LK. pose proof (lk_sane _ _ _ _ _ LK) as S1.
      destruct (step_red_effect _ _ _ _ _ (sane_numbers _ S1) AD) as (red & from & RE & RA & FA). rewrite FA in J. rewrite RA.
      destruct RE as [x _ _|r nr T L|a b na nb Ta Tb N L|a b c na nb nc Ta Tb Tc N L|a b na nb Ta Tb N]; try destruct NX; [exact (IH y Li J)|].
      destruct r as [n|u]; [destruct NX|]. destruct (com_rho snap s1 _ (lk_prev _ _ _ _ _ LK) (Uncommitted u) nr I T) as [-> _].
      destruct (Nat.eqb_spec y (List.length (concepts s1))); [destruct J|].
      destruct (Nat.eqb_spec y (rho (Uncommitted u))) as [->|NE].
      + rewrite (sadd_in _ Nat.eqb_spec) in J. destruct J as [->|J]; [rewrite Nat.eqb_refl; split; [reflexivity|cbn; lia]|].
        pose proof (listed_lt s1 _ _ S1 J) as Lt. unfold size in Lt. destruct (Nat.eqb_spec i (List.length (concepts s1))); [lia|exact (IH _ Li J)].
      + pose proof (listed_lt s1 _ _ S1 J) as Lt. unfold size in Lt. destruct (Nat.eqb_spec i (List.length (concepts s1))); [lia|exact (IH _ Li J)].
  Qed.
  (** A word that was not known is the label of what it stands for. *)
  Lemma new_label d s w x : amounts_to d s -> Forall (fun p => naming (snd p)) (d_order (overlay d)) ->
    strings_true s -> found_under s w x -> le n0 x -> carries_label s x w.
  Proof.
    intros AM NM TR (str & comp & lab & A & PT & C & B) Lx. exists lab, comp, str. split; [exact B|]. split; [exact C|].
    split; [|exact (TR _ _ A)]. apply composed_at in C. assert (Lc : le n0 comp).
    { destruct (Nat.lt_ge_cases comp n0) as [Lc|Lc]; [|exact Lc]. destruct (all_settled d (proj1 AM) s AM NM) as [_ H2].
      destruct (H2 _ Lc) as (A2 & _). rewrite C in A2. symmetry in A2. apply (comp_parts_lt snap _ _ _ S) in A2. lia. }
    clear A C. apply clos_trans_tn1 in PT. revert Lc. induction PT as [y H|y z H _ IH]; intros Lc.
    - apply from_at_spec in H. apply t_step, reduces_at. exact (proj1 (new_listed d (proj1 AM) s AM NM _ _ Lc H)).
    - apply from_at_spec in H. destruct (new_listed d (proj1 AM) s AM NM _ _ Lc H) as [R Ly].
      eapply t_trans; [apply t_step, reduces_at, R|exact (IH Ly)].
  Qed.
End Settled.
