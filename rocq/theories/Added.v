(** What the words of a command add to the store. *)
From Verif Require Import Lexer LexerSpec Parser Context StoreSpec NameSpec MapFacts AstFacts StoreFacts StoreInv RangeFacts
  History Sim SimRead Steps Keep Links Meaning Names OneName Frames StoreLaws Pending Quiet Naming Words Said Settled Spelled Uttered.
From Coq Require Import List String Relations Permutation PeanoNat Lia.
Import ListNotations.
Local Open Scope zia_scope.

(** What the concept [i] is. *)
Definition spec_at (s : snapshot) (i : nat) := match lookup s i with Some c => Some (c_spec c) | None => None end.
(** A change made for the sake of a new word among [ws]: the string, its reduction, or the name and the concept. *)
Definition tells (lab : nat) (ws : text -> Prop) (x : direct) : Prop :=
  match x with
  | DNew (NString w) => ws w
  | DNew (NReducesTo (Uncommitted _)) => True
  | DNew (NRighthand (Uncommitted _) (Committed l) None) => l = lab
  | _ => False
  end.
Lemma tells_naming lab ws x : tells lab ws x -> naming x.
Proof. destruct x as [[ | | | | | [] [] [] | | []]| | |]; cbn; tauto. Qed.
Lemma tells_wider lab (ws ws' : text -> Prop) x : (forall w, ws w -> ws' w) -> tells lab ws x -> tells lab ws' x.
Proof. intros H. destruct x as [[ | | | | | [] [] [] | | []]| | |]; cbn; auto. Qed.

(** ** One change *)
Section Step.
  Variables (dbg : bool) (s s' : snapshot) (id : cid).
  Hypothesis W : self_numbered s.
  Lemma spec_string t : apply_direct dbg id (DNew (NString t)) s = Ok s' ->
    forall i, spec_at s' i = if Nat.eqb i (size s) then Some (StringPart t) else spec_at s i.
  Proof.
    intros H. apply apply_direct_effect in H; [|exact W]. destruct H as (_ & us & E & _ & O). inversion E; subst.
    cbn in O. intros i. unfold spec_at, size. rewrite O, lookup_grown. destruct (Nat.eqb_spec i (List.length (concepts s))); reflexivity.
  Qed.
  Lemma spec_reduces_to r : apply_direct dbg id (DNew (NReducesTo r)) s = Ok s' ->
    exists nr, to_committed s r = Ok nr /\
      forall i, spec_at s' i = if Nat.eqb i (size s) then Some (Abstract (Leaf Constant) (Some nr)) else spec_at s i.
  Proof.
    intros H. apply apply_direct_effect in H; [|exact W]. destruct H as (_ & us & E & _ & O). inversion E; subst.
    match goal with H : to_committed s r = Ok ?k |- _ => exists k; split; [exact H|] end.
    match goal with H : lookup (grown s) _ = Some _ |- _ => rename H into N end.
    cbn in O. intros i. unfold spec_at, size. rewrite O, lookup_grown. rewrite lookup_grown in N.
    destruct (Nat.eqb_spec i (List.length (concepts s))) as [->|NE]; [reflexivity|].
    destruct (Nat.eqb_spec i nr) as [->|]; [|reflexivity]. destruct (Nat.eqb_spec nr (List.length (concepts s))); [lia|].
    rewrite N. reflexivity.
  Qed.
  Lemma spec_righthand comp l : apply_direct dbg id (DNew (NRighthand comp l None)) s = Ok s' ->
    exists nc nl fv bv red, to_committed s comp = Ok nc /\ to_committed s l = Ok nl /\
      (nc <> size s -> spec_at s nc = Some (Abstract (Leaf Constant) red)) /\
      forall i, spec_at s' i = if Nat.eqb i (size s) then Some (Abstract (Leaf Constant) None)
        else if Nat.eqb i nc then Some (Abstract (Comp nl (size s) fv bv) red) else spec_at s i.
  Proof.
    intros H. apply apply_direct_effect in H; [|exact W]. destruct H as (_ & us & E & _ & O). inversion E; subst.
    exists nc, nl, fv, bv, red. split; [assumption|]. split; [assumption|].
    match goal with H : lookup (grown s) nc = Some _ |- _ => rename H into N end.
    match goal with H : lookup (grown s) nl = Some _ |- _ => rename H into N' end.
    rewrite lookup_grown in N, N'. unfold spec_at, size. split.
    - intros NE. destruct (Nat.eqb_spec nc (List.length (concepts s))); [contradiction|]. rewrite N. congruence.
    - intros i. cbn in O. rewrite O, lookup_grown. destruct (Nat.eqb_spec i (List.length (concepts s))) as [->|NE]; [reflexivity|].
      destruct (Nat.eqb_spec i nc) as [->|].
      + destruct (Nat.eqb_spec nc (List.length (concepts s))); [lia|]. rewrite N. reflexivity.
      + destruct (Nat.eqb_spec i nl) as [->|]; [|reflexivity]. destruct (Nat.eqb_spec nl (List.length (concepts s))); [lia|]. rewrite N'. reflexivity.
  Qed.
  Lemma vars_righthand comp l : apply_direct dbg id (DNew (NRighthand comp l None)) s = Ok s' ->
    forall nc nl cc, to_committed s comp = Ok nc -> to_committed s l = Ok nl -> spec_at s nl = Some (Concrete cc) -> nc <> size s ->
    exists red, spec_at s' nc = Some (Abstract (Comp nl (size s) [] []) red).
  Proof.
    destruct id as [|u]; [discriminate|]. cbn [apply_direct apply_new]. intros H nc nl cc Tc Tl SL NE. oinv. apply commit_with_effect in E.
    destruct E as (-> & ns & cs & c & cs' & Hn & Nd & Hc & Fo & O & _).
    repeat match goal with
    | H : Forall2 _ (_ :: _) _ |- _ => inversion H; clear H; subst
    | H : Forall2 _ [] _ |- _ => inversion H; clear H; subst
    end.
    repeat match goal with H : to_committed s ?i = Ok ?a, H' : to_committed s ?i = Ok ?b |- _ => rewrite H in H'; injection H' as -> end.
    repeat match goal with H : lookup (grown s) ?i = Some ?c |- _ =>
      lazymatch goal with _ : c_id c = i |- _ => fail | _ => pose proof (grown_self_numbered _ W _ _ H) end end.
    oinv. subst. unfold new_righthand_of in E. destruct (c_spec _) as [?|k red|?] eqn:Sp in E; try discriminate E.
    destruct k as [a b fv bv|[]]; try discriminate E. oinv.
    rewrite lookup_grown in H3. unfold spec_at in SL. destruct (Nat.eqb_spec (c_id y1) (List.length (concepts s))) as [Q|_].
    { rewrite Q in SL. unfold lookup in SL. rewrite (proj2 (nth_error_None _ _)) in SL by lia. discriminate. }
    rewrite H3 in SL. injection SL as SL. cbn in E. rewrite SL in E. injection E as <- <- <-.
    exists red. unfold spec_at, size. rewrite (proj2 O). cbn.
    destruct (Nat.eqb_spec (c_id y2) (List.length (concepts s))) as [Q|_]; [contradiction|]. rewrite Nat.eqb_refl, H4. reflexivity.
  Qed.
  Lemma spec_reduce x ch : apply_direct dbg id (DReduce x ch) s = Ok s' ->
    exists nx k red, to_committed s x = Ok nx /\ spec_at s nx = Some (Abstract k red) /\ (forall i, i <> nx -> spec_at s' i = spec_at s i) /\
      match ch with
      | Create y => exists ny, to_committed s y = Ok ny /\ spec_at s' nx = Some (Abstract k (Some ny)) /\
          forall i, from_at s' i = if Nat.eqb i ny then sadd Nat.eqb nx (from_at s i) else from_at s i
      | Update b y => exists nb ny, to_committed s b = Ok nb /\ to_committed s y = Ok ny /\ spec_at s' nx = Some (Abstract k (Some ny)) /\
          forall i, from_at s' i = if Nat.eqb i ny then sadd Nat.eqb nx (from_at s i) else if Nat.eqb i nb then sdel Nat.eqb nx (from_at s i) else from_at s i
      | Remove y => spec_at s' nx = Some (Abstract k None)
      end.
  Proof.
    intros H. apply apply_direct_effect in H; [|exact W]. destruct H as (_ & us & E & _ & O). inversion E; subst; cbn in O.
    all: match goal with T : to_committed _ _ = Ok ?nx, H : c_spec ?cx = Abstract ?k ?red, L : lookup _ ?nx = Some ?cx |- _ => exists nx, k, red; split; [assumption|]; split; [unfold spec_at; rewrite L; congruence|] end.
    all: repeat match goal with H : NoDup _ |- _ => inversion H; clear H; subst end; cbn in *.
    all: split; [intros i NE; unfold spec_at; rewrite O; cases_at; try tauto; repeat match goal with H : lookup _ _ = Some _ |- _ => rewrite H; clear H end; reflexivity|].
    - exists ny. split; [assumption|]. split.
      + unfold spec_at. rewrite O. cases_at; try tauto. repeat match goal with H : lookup _ _ = Some _ |- _ => rewrite H; clear H end. reflexivity.
      + intros i. unfold from_at. rewrite O. cases_at; try tauto; repeat match goal with H : lookup _ _ = Some _ |- _ => rewrite H; clear H end; reflexivity.
    - exists ny, nz. split; [assumption|]. split; [assumption|]. split.
      + unfold spec_at. rewrite O. cases_at; try tauto. repeat match goal with H : lookup _ _ = Some _ |- _ => rewrite H; clear H end. reflexivity.
      + intros i. unfold from_at. rewrite O. cases_at; try tauto; repeat match goal with H : lookup _ _ = Some _ |- _ => rewrite H; clear H end; reflexivity.
    - unfold spec_at. rewrite O. cases_at; try tauto. repeat match goal with H : lookup _ _ = Some _ |- _ => rewrite H; clear H end. reflexivity.
  Qed.
End Step.

(** ** All of them *)
Section Added.
  Variables (cfg : config) (snap : snapshot) (fuel : nat).
  Hypothesis S : sane snap.
  Hypothesis P : prev_unc snap = [].
  Variables (lab : nat) (ws : text -> Prop).
  Hypothesis CL : exists cc, spec_at snap lab = Some (Concrete cc).
  Local Notation rho := (rho snap).
  Local Notation n0 := (size snap).
  Local Notation steps := (steps cfg (below n0) snap fuel).
  Local Notation amounts_to := (amounts_to cfg snap fuel).

  Definition texted (s : snapshot) (q : nat) : Prop := le n0 q /\ exists w, spec_at s q = Some (StringPart w) /\ ws w.
  Definition leads (s : snapshot) (p q : nat) : Prop :=
    texted s q /\ exists k, spec_at s p = Some (Abstract k (Some q)) /\ (k = Leaf Constant \/ exists r bv, k = Comp lab r [] bv /\ le n0 r).
  (** The old concepts are what they were.  The new ones are strings, constants, and what is between them. *)
  Definition added (s : snapshot) : Prop :=
    (forall i, lt i n0 -> spec_at s i = spec_at snap i) /\
    (forall i, le n0 i -> lt i (size s) -> texted s i \/ spec_at s i = Some (Abstract (Leaf Constant) None) \/ exists q, leads s i q) /\
    (forall q p, In p (from_at s q) -> In p (from_at snap q) \/
       le n0 p /\ leads s p q /\ forall p', In p' (from_at s q) -> p' = p) /\
    (forall w i, aget text_eqb w (string_map s) = Some i -> aget text_eqb w (string_map snap) = Some i \/ le n0 i /\ ws w).
  Lemma spec_lt s i k : spec_at s i = Some k -> lt i (size s).
  Proof. unfold spec_at, size. destruct (lookup s i) eqn:L; [|discriminate]. intros _. exact (lookup_lt _ _ _ L). Qed.
  Lemma spec_beyond s i : le (size s) i -> spec_at s i = None.
  Proof. intros L. destruct (spec_at s i) eqn:E; [|reflexivity]. apply spec_lt in E. lia. Qed.
  Lemma added_start : added snap.
  Proof. split; [auto|]. split; [intros; lia|]. split; auto. Qed.
  Lemma new_size d id nd s s' : self_numbered s -> apply_direct d id (DNew nd) s = Ok s' -> size s' = Datatypes.S (size s).
  Proof. intros W A. apply apply_direct_effect in A; [|exact W]. destruct A as (_ & us & _ & O). pose proof (size_base _ _ _ _ O) as Z. cbn in Z. lia. Qed.
  Lemma added_step d1 x id d2 s1 s2 :
    steps delta_default d1 -> legit cfg snap fuel d1 x -> delta_update x d1 = Ok (id, d2) ->
    amounts_to d1 s1 -> apply_direct (dbg cfg) id x s1 = Ok s2 -> tells lab ws x -> added s1 -> added s2.
  Proof.
    intros ST LG U AM AD TL (H1 & H2 & H3 & H4). pose proof (proj1 (amounts_linked cfg snap fuel S P _ _ AM)) as LK.
    pose proof (lk_sane _ _ _ _ _ LK) as S1. pose proof (sane_numbers _ S1) as W. pose proof (lk_prev _ _ _ _ _ LK) as PV.
    pose proof (lk_size _ _ _ _ _ LK) as Z.
    assert (NB : le n0 (size s1)) by lia.
    pose proof AD as FR. apply apply_direct_effect in FR; [|exact W]. destruct FR as ((MP & _) & _).
    destruct (step_red_effect _ _ _ _ _ W AD) as (red & from & RE & _ & FA).
    destruct x as [[w| | | | |comp l cc| |r]| | |]; try contradiction.
    - pose proof (spec_string _ _ _ _ W w AD) as SP. pose proof (new_size _ _ _ _ _ W AD) as Zs.
      assert (FR : forall q, from_at s2 q = from_at s1 q) by (intros q; rewrite FA; inversion RE; reflexivity).
      assert (OLD : forall i k, spec_at s1 i = Some k -> spec_at s2 i = Some k).
      { intros i k E. rewrite SP. destruct (Nat.eqb_spec i (size s1)) as [->|]; [rewrite spec_beyond in E by lia; discriminate|exact E]. }
      assert (LD : forall p q, leads s1 p q -> leads s2 p q).
      { intros p q ((L & v & E & V) & k & Ek & K). split; [split; [exact L|exists v; auto]|exists k; auto]. }
      split; [|split; [|split]].
      + intros i L. rewrite SP. destruct (Nat.eqb_spec i (size s1)); [lia|auto].
      + intros i L1 L2. destruct (Nat.eqb_spec i (size s1)) as [->|NE].
        * left. split; [lia|]. exists w. rewrite SP, Nat.eqb_refl. auto.
        * destruct (H2 i L1 ltac:(lia)) as [(L & v & E & V)|[E|(q & E)]]; [left; split; [exact L|exists v; auto]|right; left; auto|right; right; exists q; auto].
      + intros q p. rewrite FR. intros J. destruct (H3 q p J) as [J'|(L & E & UQ)]; [left; exact J'|right]. split; [exact L|]. split; [auto|]. exact UQ.
      + intros v i. rewrite MP, (aget_aset _ text_eqb_spec). destruct (text_eqb_spec v w) as [->|]; [|apply H4].
        intros [= <-]. right. split; [exact NB|exact TL].
    - destruct comp as [|u]; [contradiction|]. destruct l as [l|]; [|contradiction]. destruct cc; [contradiction|]. cbn in TL. subst l.
      destruct (spec_righthand _ _ _ _ W _ _ AD) as (nc & nl & fv & bv & rd & Tc & Tl & Sc & SP). pose proof (new_size _ _ _ _ _ W AD) as Zs.
      assert (nl = lab) as -> by (cbn in Tl; congruence).
      assert (LA : exists r0, last_is d1 (Uncommitted u) (DNew (NReducesTo r0))).
      { inversion LG; subst; [eauto|]. match goal with H : compose_delta _ _ _ _ = Ok _ |- _ => apply compose_delta_shape in H; destruct H as (? & [=]) end. }
      destruct LA as (r0 & LA).
      destruct (last_new cfg snap fuel d1 s1 _ _ S P ST (proj2 AM) LA) as (v & s0 & cc & _ & T0 & Z0 & LC & _ & _ & _ & _).
      rewrite Tc in T0. injection T0 as ->. specialize (Sc ltac:(lia)).
      assert (fv = []) as ->.
      { destruct CL as (cl & CL'). assert (SL : spec_at s1 lab = Some (Concrete cl)).
        { rewrite H1; [exact CL'|]. unfold spec_at, size in *. destruct (lookup snap lab) eqn:L; [|discriminate]. exact (lookup_lt _ _ _ L). }
        destruct (vars_righthand _ _ _ _ W _ _ AD _ _ _ Tc Tl SL ltac:(lia)) as (rd' & V). rewrite SP in V.
        destruct (Nat.eqb_spec (size s0) (size s1)); [lia|]. rewrite Nat.eqb_refl in V. congruence. }
      assert (NS : le n0 (size s0)).
      { destruct (com_rho snap s1 _ PV (Uncommitted u) _ I Tc) as [E _]. rewrite E. cbn. lia. }
      assert (FR : forall q, from_at s2 q = from_at s1 q) by (intros q; rewrite FA; inversion RE; reflexivity).
      assert (OLD : forall i k, i <> size s0 -> spec_at s1 i = Some k -> spec_at s2 i = Some k).
      { intros i k NE E. rewrite SP. destruct (Nat.eqb_spec i (size s1)) as [->|]; [rewrite spec_beyond in E by lia; discriminate|].
        destruct (Nat.eqb_spec i (size s0)); [contradiction|exact E]. }
      assert (TX : forall q, texted s1 q -> texted s2 q).
      { intros q (L & w & E & V). split; [exact L|]. exists w. split; [|exact V]. apply OLD; [|exact E]. intros ->. congruence. }
      assert (LD : forall p q, leads s1 p q -> leads s2 p q).
      { intros p q (T & k & Ek & K). split; [auto|]. destruct (Nat.eq_dec p (size s0)) as [->|NE]; [|exists k; auto].
        rewrite Sc in Ek. injection Ek as <- ->. exists (Comp lab (size s1) [] bv). split; [|right; exists (size s1), bv; split; [reflexivity|lia]].
        rewrite SP, Nat.eqb_refl. destruct (Nat.eqb_spec (size s0) (size s1)); [lia|reflexivity]. }
      split; [|split; [|split]].
      + intros i L. rewrite SP. destruct (Nat.eqb_spec i (size s1)); [lia|]. destruct (Nat.eqb_spec i (size s0)); [lia|auto].
      + intros i L1 L2. destruct (Nat.eqb_spec i (size s1)) as [->|NE].
        * right. left. rewrite SP, Nat.eqb_refl. reflexivity.
        * destruct (H2 i L1 ltac:(lia)) as [T|[E|(q & E)]]; [left; auto| |right; right; exists q; auto].
          destruct (Nat.eq_dec i (size s0)) as [->|NE']; [|right; left; auto].
          exfalso. rewrite Sc in E. injection E as ->. cbn in LC.
          destruct (last_new cfg snap fuel d1 s1 _ _ S P ST (proj2 AM) LA) as (v' & s0' & cc' & _ & T0 & Z0' & LC' & _ & _ & _ & SPL).
          rewrite Tc in T0. injection T0 as E0. rewrite <- E0 in LC'. unfold spec_at in Sc. rewrite LC' in Sc. injection Sc as Sc. rewrite Sc in SPL. cbn in SPL. discriminate.
      + intros q p. rewrite FR. intros J. destruct (H3 q p J) as [J'|(L & E & UQ)]; [left; exact J'|right]. split; [exact L|]. split; [auto|]. exact UQ.
      + intros w i. rewrite MP. apply H4.
    - destruct r as [|u]; [contradiction|].
      destruct (spec_reduces_to _ _ _ _ W _ AD) as (nr & Tr & SP). pose proof (new_size _ _ _ _ _ W AD) as Zs.
      assert (LA : exists t, last_is d1 (Uncommitted u) (DNew (NString t))).
      { inversion LG; subst; [eauto|]. match goal with H : compose_delta _ _ _ _ = Ok _ |- _ => apply compose_delta_shape in H; destruct H as (? & [=]) end. }
      destruct LA as (t & LA).
      destruct (last_new cfg snap fuel d1 s1 _ _ S P ST (proj2 AM) LA) as (v & s0 & cc & _ & T0 & Z0 & LC & S0 & _ & A0 & _).
      rewrite Tr in T0. injection T0 as ->.
      pose proof (spec_string _ _ _ _ (sane_numbers _ S0) t A0 (size s0)) as St. rewrite Nat.eqb_refl in St.
      assert (NS : le n0 (size s0)).
      { destruct (com_rho snap s1 _ PV (Uncommitted u) _ I Tr) as [E _]. rewrite E. cbn. lia. }
      assert (F0 : from_at s1 (size s0) = []).
      { destruct (step_red_effect _ _ _ _ _ (sane_numbers _ S0) A0) as (red0 & from0 & RE0 & _ & FA0). rewrite FA0. inversion RE0; subst.
        unfold from_at, size. rewrite lookup_self. reflexivity. }
      assert (FR : forall q, from_at s2 q = if Nat.eqb q (size s1) then [] else if Nat.eqb q (size s0) then [size s1] else from_at s1 q).
      { intros q. rewrite FA. inversion RE; subst.
        - match goal with H : forall r, _ <> _ |- _ => destruct (H _ eq_refl) end.
        - match goal with H : to_committed s1 _ = Ok ?k |- _ => rewrite Tr in H; injection H as <- end.
          change (List.length (concepts s1)) with (size s1). destruct (Nat.eqb_spec q (size s1)); [reflexivity|].
          destruct (Nat.eqb_spec q (size s0)) as [->|]; [rewrite F0|]; reflexivity. }
      assert (OLD : forall i k, spec_at s1 i = Some k -> spec_at s2 i = Some k).
      { intros i k E. rewrite SP. destruct (Nat.eqb_spec i (size s1)) as [->|]; [rewrite spec_beyond in E by lia; discriminate|exact E]. }
      assert (LD : forall p q, leads s1 p q -> leads s2 p q).
      { intros p q ((L & w & E & V) & k & Ek & K). split; [split; [exact L|exists w; auto]|exists k; auto]. }
      assert (TS : texted s1 (size s0)).
      { destruct (H2 _ NS ltac:(lia)) as [T|[E|(q & _ & k & E & _)]]; [exact T| |]; rewrite St in E; discriminate. }
      assert (NL : leads s2 (size s1) (size s0)).
      { split; [destruct TS as (L & w & E & V); split; [exact L|exists w; auto]|]. exists (Leaf Constant). split; [|left; reflexivity].
        rewrite SP, Nat.eqb_refl. reflexivity. }
      split; [|split; [|split]].
      + intros i L. rewrite SP. destruct (Nat.eqb_spec i (size s1)); [lia|auto].
      + intros i L1 L2. destruct (Nat.eqb_spec i (size s1)) as [->|NE]; [right; right; exists (size s0); exact NL|].
        destruct (H2 i L1 ltac:(lia)) as [(L & w & E & V)|[E|(q & E)]]; [left; split; [exact L|exists w; auto]|right; left; auto|right; right; exists q; auto].
      + intros q p. rewrite FR. destruct (Nat.eqb_spec q (size s1)); [intros []|]. destruct (Nat.eqb_spec q (size s0)) as [->|].
        * intros [<-|[]]. right. split; [lia|]. split; [exact NL|]. intros p' [<-|[]]. reflexivity.
        * intros J. destruct (H3 q p J) as [J'|(L & E & UQ)]; [left; exact J'|right]. auto.
      + intros w i. rewrite MP. apply H4.
  Qed.
  Lemma all_added d : steps delta_default d -> forall s, amounts_to d s -> Forall (fun p => tells lab ws (snd p)) (d_order (overlay d)) -> added s.
  Proof.
    intros ST. remember delta_default as d0 eqn:E0. induction ST as [d|d d1 x id d2 ST IH LG G U]; intros s AM NM; subst.
    - destruct AM as [_ A]. injection A as <-. exact added_start.
    - specialize (IH eq_refl). destruct (amounts_step cfg snap fuel d1 x id d2 s ST U AM) as (s1 & A1 & AD).
      destruct (update_order _ _ _ _ (steps_single _ _ _ _ _ _ ST eq_refl) U) as [EO _]. rewrite EO in NM. apply Forall_app in NM. destruct NM as [N1 N2].
      apply (added_step d1 x id d2 s1 s ST LG U A1 AD); [inversion N2; assumption|exact (IH s1 A1 N1)].
  Qed.
End Added.
