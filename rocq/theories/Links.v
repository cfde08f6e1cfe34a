(** Composition links of the store (C15). *)
From Verif Require Import Snapshot Context StoreSpec MapFacts AstFacts StoreFacts StoreInv RangeFacts
  History Sim SimRead Steps Keep.
From Coq Require Import List String.
Import ListNotations.
Local Open Scope zia_scope.

Definition hand_at (s : snapshot) (hd : hand) (i k : nat) : option nat :=
  match lookup s i with Some c => aget Nat.eqb k (hand_of c hd) | None => None end.
Lemma left_at s l r n : lists_left_composition s l r n <-> hand_at s HLeft l r = Some n.
Proof.
  unfold lists_left_composition, hand_at. destruct (lookup s l) as [c|]; split; eauto.
  - intros (c' & [= <-] & E). exact E.
  - intros (c' & ? & _). discriminate.
  - discriminate.
Qed.
Lemma right_at s l r n : lists_right_composition s r l n <-> hand_at s HRight r l = Some n.
Proof.
  unfold lists_right_composition, hand_at. destruct (lookup s r) as [c|]; split; eauto.
  - intros (c' & [= <-] & E). exact E.
  - intros (c' & ? & _). discriminate.
  - discriminate.
Qed.

Definition ins_ok (dbg : bool) (old : option nat) (c : nat) : Prop :=
  dbg = true -> old = None \/ old = Some c.

Lemma insert_into_old dbg k v m m' :
  insert_into Nat.eqb dbg k v m = Ok m' -> ins_ok dbg (aget Nat.eqb k m) v.
Proof.
  unfold insert_into. intros H D. subst. oinv.
  destruct (aget Nat.eqb k m) as [p|]; [|auto]. right. cbn in E.
  destruct (Nat.eqb_spec v p); [subst; reflexivity|discriminate].
Qed.

(** What a change does to the hands. *)
Lemma step_hands dbg s id d s' :
  sane s -> good_direct (below (size s)) d -> apply_direct dbg id d s = Ok s' -> keeps_hands d ->
  (forall hd i k, hand_at s' hd i k = hand_at s hd i k) /\ (forall c l r, ~ comp_change s d c l r) \/
  exists c l r, comp_change s d c l r /\
    (forall i k, hand_at s' HLeft i k = if Nat.eqb i l && Nat.eqb k r then Some c else hand_at s HLeft i k) /\
    (forall i k, hand_at s' HRight i k = if Nat.eqb i r && Nat.eqb k l then Some c else hand_at s HRight i k) /\
    ins_ok dbg (hand_at s HLeft l r) c /\ ins_ok dbg (hand_at s HRight r l) c.
Proof.
  intros S G H KH. pose proof (sane_numbers s S) as W.
  apply apply_direct_effect in H; [|exact W]. destruct H as (_ & us & E & _ & O).
  assert (L0 := lookup_self s).
  assert (HR : forall hd i k, hand_at s hd i k <> None -> k < List.length (concepts s)).
  { intros hd i k. unfold hand_at. destruct (lookup s i) as [c|] eqn:L; [|congruence].
    pose proof (proj1 (sane_ids s S) i c L) as (_ & O2 & O3 & _). cbn in O2, O3.
    destruct (aget Nat.eqb k (hand_of c hd)) eqn:A; [|congruence]. intros _.
    apply (aget_in _ Nat.eqb_spec) in A. destruct hd; cbn in A; [apply O2 in A|apply O3 in A]; apply A. }
  assert (TL : forall x k, below (size s) x -> to_committed s x = Ok k -> k < List.length (concepts s)).
  { intros x k B T. exact (to_committed_lt s x k S B T). }
  destruct E; cbn in G; try (destruct KH; fail);
    repeat match goal with
    | H : _ /\ _ |- _ => destruct H
    | H : good (_, _) |- _ => destruct H; cbn [fst snd] in *
    end;
    repeat match goal with
    | H : to_committed s ?x = Ok ?k |- _ =>
      lazymatch goal with
      | _ : k < List.length (concepts s) |- _ => fail
      | _ => pose proof (TL x k ltac:(assumption) H)
      end
    end.
  all: match goal with |- context [comp_change _ ?d] =>
    match d with
    | DNew (NComposition _ _) => right
    | DNew (NLefthand _ _ _) => right
    | DNew (NRighthand _ _ _) => right
    | DNew (NDouble _ _) => right
    | DCompose _ _ => right
    | _ => left; split; [|intros ? ? ? CC; inversion CC; fail]
    end end.
  all: try match goal with |- exists _ _ _, _ =>
    do 3 eexists; (split; [solve [eapply CcNew; eassumption|eapply CcLeft; eassumption|
      eapply CcRight; eassumption|eapply CcDouble; eassumption|
      (eapply CcCompose; [| | | |reflexivity]);
        [eassumption|eassumption|eassumption|first [eassumption|eapply nodup_five; eassumption]]]|]) end.
  all: repeat match goal with H : lookup (grown _) _ = Some _ |- _ =>
       rewrite lookup_grown in H;
       match type of H with context [Nat.eqb ?a ?b] => destruct (Nat.eqb_spec a b); [lia|] end
     end.
  all: repeat match goal with H : insert_into _ _ ?k ?v ?m = Ok _ |- _ =>
       let OI := fresh "OI" in
       pose proof (insert_into_old _ _ _ _ _ H) as OI;
       apply insert_into_ok in H; subst end.
  all: unfold size in *; clear TL S KH.
  all: repeat match goal with H : NoDup (_ :: _) |- _ => inversion H; clear H; subst end; cbn [In] in *.
  all: let go := (rewrite O; cbn [aget base_of]; rewrite ?lookup_grown;
     repeat match goal with |- context [Nat.eqb ?a ?b] => destruct (Nat.eqb_spec a b); [subst; try lia|] end;
     rewrite ?L0;
     repeat match goal with
     | H : lookup ?ss ?i = Some _ |- context [lookup ?ss ?i] => rewrite H
     end; cbn; rewrite ?(aget_aset _ Nat.eqb_spec); try reflexivity) in
     match goal with
     | |- forall hd i k, _ = _ => intros [] ix k'; unfold hand_at; go
     | _ => idtac
     end.
  all: try match goal with |- context [lookup ?ss ?i] => destruct (lookup ss i); reflexivity end.
  all: repeat match goal with |- _ /\ _ => split end.
  all: try match goal with |- ins_ok _ _ _ =>
      intros D;  unfold hand_at;
      repeat match goal with
      | H : lookup ?ss ?i = Some _ |- context [lookup ?ss ?i] => rewrite H
      end; rewrite ?L0; auto end.
  all: intros ix k'; unfold hand_at; rewrite O; cbn [aget base_of]; rewrite ?lookup_grown;
     repeat match goal with |- context [Nat.eqb ?a ?b] =>
       lazymatch a with k' => fail | _ => destruct (Nat.eqb_spec a b); [subst; try lia|] end end;
     rewrite ?L0;
     repeat match goal with
     | H : lookup ?ss ?i = Some _ |- context [lookup ?ss ?i] => rewrite H
     end; cbn; rewrite ?(aget_aset Nat.eqb Nat.eqb_spec); try reflexivity.

Qed.

Lemma comp_change_fun s d c l r c' l' r' :
  comp_change s d c l r -> comp_change s d c' l' r' -> c = c' /\ l = l' /\ r = r'.
Proof.
  intros H K. destruct H; inversion K; subst;
    repeat match goal with
    | H : ?a = Ok _, K : ?a = Ok _ |- _ => rewrite H in K; injection K as ->
    | H : ?a = Some _, K : ?a = Some _ |- _ => rewrite H in K; injection K as -> ->
    end; auto.
Qed.

(** Composition links in both directions. *)
Definition links_agree (s : snapshot) : Prop :=
  (forall n l r, comp_at s n = Some (l, r) ->
     hand_at s HLeft l r = Some n /\ hand_at s HRight r l = Some n) /\
  (forall n l r, hand_at s HLeft l r = Some n \/ hand_at s HRight r l = Some n ->
     comp_at s n = Some (l, r)).

Lemma links_agree_spec s :
  links_agree s ->
  compositions_are_listed s /\ listed_compositions_are_real s /\ compositions_are_unique s.
Proof.
  intros [A B]. split; [|split].
  - intros n l r C. apply composed_at in C. rewrite left_at, right_at. apply A, C.
  - intros n l r C. rewrite left_at, right_at in C. apply composed_at, B, C.
  - intros n n' l r C C'. apply composed_at in C. apply composed_at in C'.
    apply A in C. apply A in C'. destruct C, C'. congruence.
Qed.

(** The changes that keep the links: in a debug build composing a so far uncomposed concept is
    one of them, because the build checks that the pair has no composition. *)
Definition links_safe (b : bool) (x : direct) : Prop :=
  match x with DCompose _ (Create _) => b = true | DCompose _ _ => False | _ => True end.

Lemma hand_range s hd i k n : sane s -> hand_at s hd i k = Some n -> k < size s.
Proof.
  intros S. unfold hand_at. destruct (lookup s i) as [c|] eqn:L; [|congruence].
  pose proof (proj1 (sane_ids s S) i c L) as (_ & O2 & O3 & _). cbn in O2, O3.
  intros A. apply (aget_in _ Nat.eqb_spec) in A.
  destruct hd; cbn in A; [apply O2 in A|apply O3 in A]; apply A.
Qed.

Lemma legit_fresh cfg snap fuel d1 s1 x id d2 s2 c l r :
  sane snap -> prev_unc snap = [] ->
  linked cfg snap true d1 s1 -> apply_directs (dbg cfg) (d_order (overlay d1)) snap = Ok s1 ->
  steps cfg (below (size snap)) snap fuel delta_default d1 ->
  legit cfg snap fuel d1 x -> good_direct (below (size snap)) x ->
  delta_update x d1 = Ok (id, d2) -> apply_direct (dbg cfg) id x s1 = Ok s2 ->
  links_safe (dbg cfg) x -> comp_change s1 x c l r ->
  comp_at s1 c = None /\ (dbg cfg = false -> hand_at s1 HLeft l r = None).
Proof.
  intros S P LK A ST LG G U AD SF C. pose proof (lk_sane _ _ _ _ _ LK) as S1.
  pose proof (lk_prev _ _ _ _ _ LK) as PV.
  assert (NC : comp_at s1 (size s1) = None).
  { unfold comp_at, size. rewrite lookup_self. reflexivity. }
  assert (LAST : forall comp r0 nc, last_is d1 comp (DNew (NReducesTo r0)) ->
     to_committed s1 comp = Ok nc -> comp_at s1 nc = None).
  { intros comp r0 nc LA T.
    destruct (last_new cfg snap fuel d1 s1 comp _ S P ST A LA)
      as (u & s0 & cc & -> & T0 & Z & LC & S0 & G0 & A0 & SP).
    rewrite T in T0. injection T0 as ->. unfold comp_at, get_composition. rewrite LC. cbn in SP.
    destruct (c_spec cc) as [|[] ?|]; cbn in SP; try discriminate; reflexivity. }
  assert (HN : hand_at s1 HLeft (size s1) (size s1) = None).
  { unfold hand_at, size. rewrite lookup_self. reflexivity. }
  assert (HN' : forall i, hand_at s1 HLeft i (size s1) = None).
  { intros i. destruct (hand_at s1 HLeft i (size s1)) eqn:E; [|reflexivity].
    apply hand_range in E; [lia|exact S1]. }
  assert (NCD : forall m c0 a b nd, compose_delta cfg m c0 a <> Ok (DNew nd) /\
                                  compose_delta cfg m c0 a <> Ok (DNew b)).
  { intros m c0 a b nd. split; intros H; destruct (compose_delta_shape _ _ _ _ _ H) as (? & E); discriminate E. }
  destruct C as [a b na nb Ta Tb N|c0 r0 cc nc nr Tc Tr N|c0 l0 cc nc nl Tc Tl N|c0 cc nc Tc
                |c0 ch a b nc nl nr Tc Tl Tr ND CA].
  - split; [exact NC|]. intros _. inversion LG as [| | | |lx rx m Rm Fm| | | | | |]; subst; [|destruct (proj1 (NCD m l r NFreeVariable (NComposition a b))); assumption].
    destruct (linked_read _ _ _ _ _ _ _ LK Rm) as (D & cc & L & SM).
    cbn in G. destruct G as [Ga Gb].
    destruct (com_rho snap s1 _ PV a na Ga Ta) as [-> _].
    destruct (com_rho snap s1 _ PV b nb Gb Tb) as [-> Db].
    unfold hand_at. rewrite L. pose proof (sim_hand _ _ _ _ _ SM eq_refl b HLeft Db) as X.
    rewrite Fm in X. cbn in X. symmetry. exact X.
  - inversion LG; subst. destruct (proj1 (NCD m l r NFreeVariable (NLefthand c0 r0 cc))); assumption.
  - inversion LG; subst; [|destruct (proj1 (NCD m l r NFreeVariable (NRighthand c0 l0 cc))); assumption].
    split; [eapply LAST; eassumption|]. intros _. apply HN'.
  - inversion LG; subst; [|destruct (proj1 (NCD m l r NFreeVariable (NDouble c0 cc))); assumption].
    split; [eapply LAST; eassumption|]. intros _. exact HN.
  - inversion LG as [| | | | | | | | |c1 m ll rr x' B1 B2 K1 K2 R CD EX|]; subst.
    destruct ch as [p|p q|p]; cbn in SF; try contradiction. rewrite SF. split; [|discriminate].
    destruct (linked_comp _ _ _ _ _ _ _ LK R) as (MI & CM).
    destruct (linked_read _ _ _ _ _ _ _ LK R) as (D & cc & L & SM).
    pose proof CD as CD'. unfold compose_delta in CD'. apply obind_ok in CD'.
    destruct CD' as (mc & E1 & E2). destruct mc as [k|]; [|discriminate].
    destruct (maybe_composition_spec cfg m k E1) as (red & MS).
    destruct k as [bl br fv bv|[]]; try discriminate. injection E2 as E3 E4. subst c0.
    rewrite (sim_comp _ _ _ _ _ SM), MS in CM. cbn in CM. rewrite MI in Tc. cbn in G.
    rewrite MI in G.
    destruct (com_rho snap s1 _ PV c1 nc ltac:(apply G) Tc) as [-> _]. exact CM.
Qed.

Lemma step_links cfg snap fuel :
  sane snap -> prev_unc snap = [] ->
  step_keeps cfg snap fuel true
    (fun d s => (forall id x, In (id, x) (d_order (overlay d)) -> links_safe (dbg cfg) x) ->
                links_agree s).
Proof.
  intros S P d1 s1 x id d2 s2 LK A ST LG G KH U AD _ IH OK.
  pose proof (lk_sane _ _ _ _ _ LK) as S1. specialize (KH eq_refl).
  destruct (update_order _ _ _ _ (steps_single _ _ _ _ _ _ ST eq_refl) U) as [EO _].
  assert (OKx : links_safe (dbg cfg) x).
  { apply (OK id x). rewrite EO, in_app_iff. right. left. reflexivity. }
  assert (W : links_agree s1).
  { apply IH. intros j y I. apply (OK j y). rewrite EO, in_app_iff. auto. }
  clear IH OK. pose proof (good_now _ _ _ _ _ _ LK G) as G1.
  assert (NR : forall c l r, x <> DCompose c (Remove (l, r))) by (intros c l r ->; exact KH).
  destruct (step_comp _ _ _ _ _ S1 G1 AD NR) as [(K1 & _ & K2)|(c & l & r & C & K & _)].
  - destruct (step_hands _ _ _ _ _ S1 G1 AD KH) as [[H _]|(c & l & r & C & _)]; [|destruct (K2 _ _ _ C)].
    destruct W as [W1 W2]. split.
    + intros n l r. rewrite K1, !H. apply W1.
    + intros n l r. rewrite K1, !H. apply W2.
  - destruct (step_hands _ _ _ _ _ S1 G1 AD KH) as [[_ H]|(c' & l' & r' & C' & HL & HR & OL & OR)];
      [destruct (H _ _ _ C)|].
    destruct (comp_change_fun _ _ _ _ _ _ _ _ C C') as (<- & <- & <-). clear C'.
    destruct (legit_fresh cfg snap fuel d1 s1 x id d2 s2 c l r S P LK A ST LG G U AD OKx C) as (NC & NH).
    destruct W as [W1 W2].
    assert (NL : hand_at s1 HLeft l r = None).
    { destruct (hand_at s1 HLeft l r) as [n|] eqn:E; [|reflexivity].
      destruct (dbg cfg) eqn:DB; [|apply NH; reflexivity].
      destruct (OL eq_refl) as [O|O]; [congruence|]. injection O as ->.
      rewrite (W2 c l r (or_introl E)) in NC. discriminate. }
    assert (NRt : hand_at s1 HRight r l = None).
    { destruct (hand_at s1 HRight r l) as [n|] eqn:E; [|reflexivity].
      destruct (W1 _ _ _ (W2 n l r (or_intror E))) as [X _]. congruence. }
    split.
    + intros n a b. rewrite K, HL, HR. destruct (Nat.eqb_spec n c) as [->|N].
      * intros [= -> ->]. rewrite !Nat.eqb_refl. auto.
      * intros E. destruct (W1 _ _ _ E) as [X1 X2].
        destruct (Nat.eqb_spec a l), (Nat.eqb_spec b r); subst; cbn; try (split; assumption); congruence.
    + intros n a b. rewrite K, HL, HR.
      destruct (Nat.eqb_spec a l), (Nat.eqb_spec b r); cbn; subst.
      * intros [[= <-]|[= <-]]; rewrite Nat.eqb_refl; reflexivity.
      * intros E. apply W2 in E. destruct (Nat.eqb_spec n c); [congruence|exact E].
      * intros E. apply W2 in E. destruct (Nat.eqb_spec n c); [congruence|exact E].
      * intros E. apply W2 in E. destruct (Nat.eqb_spec n c); [congruence|exact E].
Qed.

(** Contexts reached by commands all of whose changes satisfy [ok]. *)
Inductive reachable_with (b : bool) (ok : direct -> Prop) : ctx -> Prop :=
| reach_with_base : reachable_with b ok base_context
| reach_with_execute cfg fuel t c z c1 r c' :
    fair cfg -> dbg cfg = b -> reachable_with b ok c ->
    run_command cfg fuel t c = Ok (z, c1) ->
    (forall id x, In (id, x) (d_order (overlay (c_delta c1))) -> ok x) ->
    execute cfg fuel t c = Ok (r, c') -> reachable_with b ok c'.

Lemma reachable_without b ok c : reachable_with b ok c -> reachable b c.
Proof. intros R. induction R; [apply reach_base|eapply reach_execute; eassumption]. Qed.

Lemma safe_hands b x : links_safe b x -> keeps_hands x.
Proof. destruct x as [|? []| |]; cbn; auto. Qed.

Lemma links_same s s' : concepts s' = concepts s -> links_agree s -> links_agree s'.
Proof.
  intros E. unfold links_agree, comp_at, hand_at, lookup. rewrite E. auto.
Qed.

(** A checker, for stores given explicitly. *)
Definition links_agree_b (s : snapshot) : bool :=
  let ns := seq 0 (List.length (concepts s)) in
  forallb (fun n => match comp_at s n with
                    | Some (l, r) => option_eqb Nat.eqb (hand_at s HLeft l r) (Some n) &&
                                     option_eqb Nat.eqb (hand_at s HRight r l) (Some n)
                    | None => true
                    end) ns &&
  forallb (fun l => forallb (fun r =>
    match hand_at s HLeft l r with
    | Some n => option_eqb (fun '(a, b) '(a', b') => Nat.eqb a a' && Nat.eqb b b') (comp_at s n) (Some (l, r))
    | None => true
    end &&
    match hand_at s HRight r l with
    | Some n => option_eqb (fun '(a, b) '(a', b') => Nat.eqb a a' && Nat.eqb b b') (comp_at s n) (Some (l, r))
    | None => true
    end) ns) ns.

Lemma links_agree_check s : sane s -> links_agree_b s = true -> links_agree s.
Proof.
  intros S H. unfold links_agree_b in H. apply andb_prop in H. destruct H as [H1 H2].
  rewrite forallb_forall in H1, H2.
  assert (LT : forall hd i k n, hand_at s hd i k = Some n -> i < size s /\ k < size s).
  { intros hd i k n E. split; [|eapply hand_range; eauto].
    unfold hand_at in E. destruct (lookup s i) eqn:L; [|discriminate]. apply lookup_lt in L. exact L. }
  assert (OE : forall (a : option nat) n, option_eqb Nat.eqb a (Some n) = true -> a = Some n).
  { intros [a|] n E; cbn in E; [|discriminate]. apply Nat.eqb_eq in E. congruence. }
  assert (PE : forall (a : option (nat * nat)) l r,
     option_eqb (fun '(a, b) '(a', b') => Nat.eqb a a' && Nat.eqb b b') a (Some (l, r)) = true -> a = Some (l, r)).
  { intros [[a b]|] l r E; cbn in E; [|discriminate]. apply andb_prop in E. destruct E as [E F].
    apply Nat.eqb_eq in E. apply Nat.eqb_eq in F. congruence. }
  split.
  - intros n l r E. assert (I : n < size s).
    { unfold comp_at in E. destruct (lookup s n) eqn:L; [|discriminate]. apply lookup_lt in L. exact L. }
    specialize (H1 n). rewrite E in H1. rewrite in_seq in H1. 
    assert (X := H1 ltac:(unfold size in I; lia)). apply andb_prop in X. destruct X. auto.
  - intros n l r E.
    assert (I : l < size s /\ r < size s) by (destruct E as [E|E]; apply LT in E; tauto).
    specialize (H2 l). rewrite in_seq in H2. specialize (H2 ltac:(unfold size in I; lia)).
    rewrite forallb_forall in H2. specialize (H2 r). rewrite in_seq in H2.
    specialize (H2 ltac:(unfold size in I; lia)). apply andb_prop in H2. destruct H2 as [Ha Hb].
    destruct E as [E|E]; rewrite E in *; apply PE; assumption.
Qed.

Lemma base_links : links_agree (c_snap base_context).
Proof. apply links_agree_check; [apply base_ready|]. vm_compute. reflexivity. Qed.

Lemma reachable_links b c : reachable_with b (links_safe b) c -> links_agree (c_snap c).
Proof.
  intros R. induction R as [|cfg fuel t c z c1 r c' F D R IH E1 OK E]; [apply base_links|].
  pose proof (reachable_ready _ _ (reachable_without _ _ _ R)) as RD.
  destruct (execute_run cfg fuel t c r c' F RD E) as (z' & c1' & E1' & _ & _ & ST & G & L & A & _).
  rewrite E1 in E1'. injection E1' as <- <-.
  destruct (apply_split _ _ _ _ (ready_sane c RD) L G A) as (s1 & A1 & C1 & C2 & _).
  apply (links_same s1); auto. subst b.
  destruct (steps_keep cfg (c_snap c) fuel true _ (c_delta c1) s1 (ready_sane c RD) (ready_prev c RD)
              ST A1 (fun _ id x I => safe_hands _ _ (OK id x I))
              (step_links cfg (c_snap c) fuel (ready_sane c RD) (ready_prev c RD)) (fun _ => IH)) as [_ K].
  exact (K OK).
Qed.

(** Running commands and checking the changes they record. *)
Definition links_safe_b (b : bool) (x : direct) : bool :=
  match x with DCompose _ (Create _) => b | DCompose _ _ => false | _ => true end.
Fixpoint run_safely (cfg : config) (fuel : nat) (cmds : list text) (c : ctx) : option ctx :=
  match cmds with
  | [] => Some c
  | t :: cmds =>
    match run_command cfg fuel t c, execute cfg fuel t c with
    | Ok (_, c1), Ok (_, c') =>
      if forallb (fun p => links_safe_b (dbg cfg) (snd p)) (d_order (overlay (c_delta c1)))
      then run_safely cfg fuel cmds c' else None
    | _, _ => None
    end
  end.
Lemma run_safely_reachable cfg fuel cmds : fair cfg -> forall c c',
  reachable_with (dbg cfg) (links_safe (dbg cfg)) c -> run_safely cfg fuel cmds c = Some c' ->
  reachable_with (dbg cfg) (links_safe (dbg cfg)) c'.
Proof.
  intros F. induction cmds as [|t cmds IH]; intros c c' R E; cbn in E.
  - injection E as <-. exact R.
  - destruct (run_command cfg fuel t c) as [[z c1]| | |] eqn:E1; try discriminate.
    destruct (execute cfg fuel t c) as [[r c2]| | |] eqn:E2; try discriminate.
    destruct (forallb _ _) eqn:E3; [|discriminate].
    apply (IH c2 c'); [|exact E].
    eapply reach_with_execute; try eassumption; [reflexivity|].
    intros id x I. rewrite forallb_forall in E3. specialize (E3 _ I). cbn in E3.
    destruct x as [|? []| |]; cbn in *; congruence || exact I0 || auto; discriminate.
Qed.
