(** What every change a command can record keeps. *)
From Verif Require Import Snapshot Context StoreSpec MapFacts AstFacts StoreFacts StoreInv RangeFacts
  History Sim SimRead Steps.
From Coq Require Import List String.
Import ListNotations.
Local Open Scope zia_scope.

(** The last recorded change is the last one applied. *)
Lemma last_step cfg snap fuel d1 s1 id x :
  sane snap -> prev_unc snap = [] ->
  steps cfg (below (size snap)) snap fuel delta_default d1 ->
  apply_directs (dbg cfg) (d_order (overlay d1)) snap = Ok s1 -> last_is d1 id x ->
  exists d0 s0, linked cfg snap false d0 s0 /\ good_direct (below (size snap)) x /\
    legit cfg snap fuel d0 x /\
    delta_update x d0 = Ok (id, d1) /\ apply_direct (dbg cfg) id x s0 = Ok s1.
Proof.
  intros S P ST A (l & EL). remember delta_default as d0 eqn:E0.
  destruct ST as [d|d d1 y id' d2 ST L G U]; subst.
  - cbn in EL. destruct l; discriminate EL.
  - pose proof (steps_single _ _ _ _ _ _ ST eq_refl) as Ld.
    destruct (update_order _ _ _ _ Ld U) as [EO _].
    rewrite EO in EL, A. apply app_inj_tail in EL. destruct EL as [_ EL]. injection EL as <- <-.
    rewrite apply_directs_app in A. apply obind_ok in A. destruct A as (s0 & A1 & A2).
    cbn in A2. apply obind_ok in A2. destruct A2 as (s2 & A2 & A3). injection A3 as <-.
    exists d1, s0. split; [|auto].
    apply (steps_keep cfg snap fuel false (fun _ _ => True) d1 s0 S P ST A1); auto.
    + discriminate.
    + intros ? ? ? ? ? ? ? ? ? ? ? ? ? ? ? ?. exact I.
Qed.

(** The concept created by the last change. *)
Lemma last_new cfg snap fuel d1 s1 id nd :
  sane snap -> prev_unc snap = [] ->
  steps cfg (below (size snap)) snap fuel delta_default d1 ->
  apply_directs (dbg cfg) (d_order (overlay d1)) snap = Ok s1 -> last_is d1 id (DNew nd) ->
  exists u s0 c, id = Uncommitted u /\ to_committed s1 id = Ok (size s0) /\ size s1 = S (size s0) /\
    lookup s1 (size s0) = Some c /\ sane s0 /\ good_direct (below (size s0)) (DNew nd) /\
    apply_direct (dbg cfg) id (DNew nd) s0 = Ok s1 /\
    strip (c_spec c) = seen snap (m_spec (MUnc (concept_of_new id nd))).
Proof.
  intros S P ST A L.
  destruct (last_step cfg snap fuel d1 s1 id (DNew nd) S P ST A L) as (d0 & s0 & LK & G & LG & U & A1).
  pose proof (linked_step cfg snap false d0 s0 (DNew nd) id d1 s1 LK G ltac:(discriminate) U A1) as LK1.
  pose proof (lk_sane _ _ _ _ _ LK) as S0. pose proof (lk_size _ _ _ _ _ LK) as Z0.
  pose proof A1 as A1'. apply apply_direct_effect in A1'; [|apply S0].
  destruct A1' as ((F1 & F2 & F3) & us & E & O).
  pose proof (size_base _ _ _ _ O) as Z. cbn in Z.
  destruct d0 as [l0 i0]. cbn in U. oinv. subst.
  match goal with H : update_layer _ _ = _ |- _ => apply update_layer_spec in H;
      destruct H as (U1 & U2 & _) end. cbn in U1. subst id. cbn [overlay] in *.
  destruct (effect_new snap (dbg cfg) s0 (d_num l0) Z0 (lk_prev _ _ _ _ _ LK) nd us s1 E O G)
    as (c2 & L2 & Q1 & Q2 & Q3 & _).
  exists (d_num l0), s0, c2. split; [reflexivity|]. split.
  { cbn. rewrite F3, (aget_aset _ Nat.eqb_spec), Nat.eqb_refl. reflexivity. }
  split; [exact Z|]. split; [rewrite Z0; exact L2|]. split; [exact S0|].
  split; [eapply good_direct_mono; [|exact G]; intros j; apply below_mono; lia|].
  split; [exact A1|]. rewrite Q3. destruct nd; cbn; try reflexivity;
    match goal with c : option cct |- _ => destruct c; reflexivity end.
Qed.

(** ** C12: variables *)
Definition variables_stay (s s' : snapshot) : Prop :=
  forall n ch, ch <> Constant -> leaf_variable s n ch -> leaf_variable s' n ch.

Lemma compose_delta_shape cfg m l r x :
  compose_delta cfg m l r = Ok x -> exists ch, x = DCompose (m_id m) ch.
Proof.
  unfold compose_delta. intros H. apply obind_ok in H. destruct H as (mc & _ & H).
  destruct mc as [[? ? ? ?|[]]|]; try discriminate; injection H as <-; eauto.
Qed.
Lemma maybe_composition_spec cfg m k :
  m_maybe_composition cfg m = Ok (Some k) -> exists red, m_spec m = Abstract k red.
Proof.
  destruct m as [o chs comp red|cu]; cbn; unfold maybe_composition.
  - destruct (c_spec o) as [|[] ?|]; try discriminate; destruct comp as [[a b]|]; intros E; oinv; subst;
      eexists; reflexivity.
  - destruct (c_spec cu) as [|[] ?|]; intros E; oinv; try discriminate; subst; eexists; reflexivity.
Qed.

Lemma compose_not_variable cfg m l r x snap h num c :
  compose_delta cfg m l r = Ok x -> sim snap h num m (stripc h c) ->
  (forall ch red, c_spec c = Abstract (Leaf ch) red -> ch = Constant) /\
  (exists k red, c_spec c = Abstract k red) /\
  (x = DCompose (m_id m) (Create (l, r)) \/
   exists bl br, x = DCompose (m_id m) (Update (bl, br) (l, r))).
Proof.
  intros E S. pose proof (sim_spec _ _ _ _ _ S) as SP. cbn in SP.
  unfold compose_delta in E. apply obind_ok in E. destruct E as (mc & E1 & E2).
  assert (X : exists k red, mc = Some k /\ m_spec m = Abstract k red /\ (forall ch, k = Leaf ch -> ch = Constant) /\
     (x = DCompose (m_id m) (Create (l, r)) \/
      exists bl br, x = DCompose (m_id m) (Update (bl, br) (l, r)))).
  { destruct mc as [k|]; [|discriminate]. destruct (maybe_composition_spec cfg m k E1) as (red & MS).
    exists k, red. split; [reflexivity|]. split; [exact MS|].
    destruct k as [bl br fv bv|[]]; try discriminate; injection E2 as <-;
      (split; [first [discriminate|intros ? [= <-]; reflexivity]|eauto]). }
  destruct X as (k & red & -> & MS & KC & XC). rewrite MS in SP. split; [|split; [|exact XC]].
  - intros ch red' E. rewrite E in SP. cbn in SP. destruct k as [a b fv bv|ch']; cbn in SP; [discriminate|].
    injection SP as -> _. apply KC. reflexivity.
  - destruct (c_spec c) as [|k' red'|]; cbn in SP; try discriminate. eauto.
Qed.

(** Composing changes, case by case. *)
Definition comp_at (s : snapshot) (i : nat) : option (nat * nat) :=
  match lookup s i with Some c => get_composition c | None => None end.
Definition char_at (s : snapshot) (i : nat) : option leaf_character :=
  match lookup s i with
  | Some c => match c_spec c with Abstract (Leaf ch) _ => Some ch | _ => None end
  | None => None
  end.
Lemma composed_at s n l r : composed s n l r <-> comp_at s n = Some (l, r).
Proof.
  unfold composed, comp_at, get_composition. split.
  - intros (c & fv & bv & red & -> & ->). reflexivity.
  - destruct (lookup s n) as [c|]; [|discriminate].
    destruct (c_spec c) as [|[] ?|] eqn:E; try discriminate. intros [= <- <-]. eauto 6.
Qed.
Lemma leaf_variable_at s n ch : leaf_variable s n ch <-> char_at s n = Some ch.
Proof.
  unfold leaf_variable, char_at. split.
  - intros (c & red & -> & ->). reflexivity.
  - destruct (lookup s n) as [c|]; [|discriminate].
    destruct (c_spec c) as [|[] ?|] eqn:E; try discriminate. intros [= <-]. eauto.
Qed.

(** The concept a change gives a new composition, if any. *)
Inductive comp_change (s : snapshot) : direct -> nat -> nat -> nat -> Prop :=
| CcNew l r nl nr :
    to_committed s l = Ok nl -> to_committed s r = Ok nr -> nl <> nr ->
    comp_change s (DNew (NComposition l r)) (size s) nl nr
| CcLeft c r cc nc nr :
    to_committed s c = Ok nc -> to_committed s r = Ok nr -> nr <> nc ->
    comp_change s (DNew (NLefthand c r cc)) nc (size s) nr
| CcRight c l cc nc nl :
    to_committed s c = Ok nc -> to_committed s l = Ok nl -> nl <> nc ->
    comp_change s (DNew (NRighthand c l cc)) nc nl (size s)
| CcDouble c cc nc :
    to_committed s c = Ok nc ->
    comp_change s (DNew (NDouble c cc)) nc (size s) (size s)
| CcCompose c ch l r nc nl nr :
    to_committed s c = Ok nc -> to_committed s l = Ok nl -> to_committed s r = Ok nr ->
    NoDup [nc; nl; nr] -> Delta.after ch = Some (l, r) ->
    comp_change s (DCompose c ch) nc nl nr.

Lemma nodup_five {A} (a b c d e : A) : NoDup [a; b; c; d; e] -> NoDup [a; d; e].
Proof.
  intros H. rewrite !NoDup_cons_iff in *. cbn in *. intuition.
Qed.

Lemma and_assoc_r (P Q R : Prop) : P /\ Q /\ R <-> (P /\ Q) /\ R.
Proof. tauto. Qed.
Lemma step_comp dbg s id d s' :
  sane s -> good_direct (below (size s)) d -> apply_direct dbg id d s = Ok s' ->
  (forall c l r, d <> DCompose c (Remove (l, r))) ->
  ((forall i, comp_at s' i = comp_at s i) /\
   (forall i ch, char_at s i = Some ch -> char_at s' i = Some ch) /\
   (forall c l r, ~ comp_change s d c l r)) \/
  exists c l r, comp_change s d c l r /\
    (forall i, comp_at s' i = if Nat.eqb i c then Some (l, r) else comp_at s i) /\
    (forall i ch, i <> c -> char_at s i = Some ch -> char_at s' i = Some ch).
Proof.
  intros S G H NR. pose proof (sane_numbers s S) as W.
  apply apply_direct_effect in H; [|exact W]. destruct H as (_ & us & E & _ & O).
  assert (L0 := lookup_self s).
  assert (TL : forall x k, below (size s) x -> to_committed s x = Ok k -> k < List.length (concepts s)).
  { intros x k B T. exact (to_committed_lt s x k S B T). }
  unfold comp_at, char_at.
  destruct E; cbn in G;
    repeat match goal with
    | H : _ /\ _ |- _ => destruct H
    | H : good (_, _) |- _ => destruct H; cbn [fst snd] in *
    end;
    repeat match goal with
    | H : to_committed s ?x = Ok ?k |- _ =>
      lazymatch goal with
      | _ : k < List.length (concepts s) |- _ => fail
      | _ => pose proof (TL x k ltac:(assumption) H)
      end
    end.
  all: match goal with |- context [comp_change _ ?d] =>
    match d with
    | DNew (NComposition _ _) => right
    | DNew (NLefthand _ _ _) => right
    | DNew (NRighthand _ _ _) => right
    | DNew (NDouble _ _) => right
    | DCompose _ (Remove _) => exfalso; eapply NR; reflexivity
    | DCompose _ _ => right
    | _ => left; rewrite and_assoc_r; split; [|intros ? ? ? CC; inversion CC; fail]
    end end.
  all: try match goal with |- exists _ _ _, _ =>
    do 3 eexists; (split; [solve [eapply CcNew; eassumption|eapply CcLeft; eassumption|
      eapply CcRight; eassumption|eapply CcDouble; eassumption|
      (eapply CcCompose; [| | | |reflexivity]);
        [eassumption|eassumption|eassumption|first [eassumption|eapply nodup_five; eassumption]]]|]) end.
  all: unfold size in *; clear TL NR S; split; intros ix; rewrite O; clear O; cbn [aget base_of];
     repeat match goal with H : lookup (grown _) _ = Some _ |- _ =>
       rewrite lookup_grown in H;
       match type of H with context [Nat.eqb ?a ?b] => destruct (Nat.eqb_spec a b); [lia|] end
     end;
     repeat match goal with H : NoDup (_ :: _) |- _ => inversion H; clear H; subst end; cbn [In] in *;
     rewrite ?lookup_grown.
  all: 
     repeat match goal with |- context [Nat.eqb ?a ?b] => destruct (Nat.eqb_spec a b); [subst; try lia|] end;
     rewrite ?L0; 
     repeat match goal with
     | H : lookup ?ss ?i = Some _ |- context [lookup ?ss ?i] => rewrite H
     end; cbn; unfold get_composition; cbn;
     repeat match goal with H : c_spec _ = _ |- _ => rewrite H end; cbn; auto; try discriminate; try congruence.
  all: match goal with c : option cct |- _ => destruct c; reflexivity end.
Qed.

Lemma same_concepts_at s s' :
  concepts s' = concepts s -> forall i, lookup s' i = lookup s i.
Proof. intros E i. unfold lookup. rewrite E. reflexivity. Qed.

(** [c] is [i] or one of its direct or indirect parts. *)
Inductive inside (s : snapshot) (c : nat) : nat -> Prop :=
| inside_self : inside s c c
| inside_part i l r p : comp_at s i = Some (l, r) -> p = l \/ p = r -> inside s c p -> inside s c i.

Lemma not_part_inside s c i :
  (forall p l r, comp_at s p = Some (l, r) -> l <> c /\ r <> c) -> inside s c i -> i = c.
Proof.
  intros N H. induction H as [|i l r p E O I IH]; [reflexivity|].
  destruct (N i l r E). destruct O; subst; tauto.
Qed.
Lemma leaf_inside s c i : comp_at s i = None -> inside s c i -> i = c.
Proof. intros E H. destruct H as [|i l r p E' O I]; [reflexivity|congruence]. Qed.

Lemma comp_range s p l r : sane s -> comp_at s p = Some (l, r) -> l < size s /\ r < size s.
Proof.
  intros S E. unfold comp_at in E. destruct (lookup s p) as [c|] eqn:L; [|discriminate].
  pose proof (proj1 (sane_ids s S) p c L) as (_ & _ & _ & _ & O).
  unfold get_composition in E. unfold okspec in O. cbn in O.
  destruct (c_spec c) as [|[] red|]; try discriminate. injection E as -> ->. tauto.
Qed.

(** What a read of a composition says about the store. *)
Lemma linked_comp cfg snap h d s k m :
  linked cfg snap h d s -> read_concept cfg snap d k = Ok m ->
  m_id m = k /\
  comp_at s (rho snap k) =
    match m_composition m with Some (l, r) => Some (rho snap l, rho snap r) | None => None end.
Proof.
  intros LK R. destruct (linked_read cfg snap h d s k m LK R) as (D & c & L & S).
  pose proof (sane_numbers _ (lk_sane _ _ _ _ _ LK) _ _ L) as N. split.
  - apply (rho_inj snap (d_num (overlay d))); [apply (sim_id_dom _ _ _ _ _ S)|exact D|].
    rewrite <- N. symmetry. exact (sim_id _ _ _ _ _ S).
  - unfold comp_at. rewrite L, (sim_comp _ _ _ _ _ S).
    pose proof (sim_spec _ _ _ _ _ S) as E. cbn in E. unfold get_composition, spec_comp.
    destruct (c_spec c) as [|[] ?|]; cbn in E; destruct (m_spec m) as [|[] ?|]; try discriminate E;
      try reflexivity; injection E as -> -> _; reflexivity.
Qed.

Lemma contains_sound cfg snap h d s fuel outer inner :
  linked cfg snap h d s -> dom snap (d_num (overlay d)) inner ->
  contains cfg snap d fuel outer inner = Ok false -> outer <> inner ->
  ~ inside s (rho snap inner) (rho snap outer).
Proof.
  intros LK DI. revert outer. induction fuel as [|fuel IH]; cbn; [discriminate|].
  intros outer E NE I. apply obind_ok in E. destruct E as (m & R & E).
  destruct (linked_read cfg snap h d s outer m LK R) as (DO & c & L & S).
  destruct (linked_comp cfg snap h d s outer m LK R) as (_ & C).
  inversion I as [H|i l r p E' O I' H]; subst.
  { apply NE. symmetry. eapply rho_inj; eauto. }
  rewrite E' in C.
  destruct (m_composition m) as [[a b]|] eqn:MC; [|discriminate]. injection C as -> ->.
  destruct (cid_eqb_spec a inner) as [|Na]; [discriminate|].
  destruct (cid_eqb_spec b inner) as [|Nb]; [discriminate|]. cbn in E.
  apply obind_ok in E. destruct E as (bb & E1 & E2). destruct bb; [discriminate|].
  destruct O as [->| ->]; [exact (IH a E1 Na I')|exact (IH b E2 Nb I')].
Qed.

(** What the legitimacy of a change says about the concept it composes: it is no variable and
    not inside its new parts. *)
Lemma legit_comp cfg snap fuel d1 s1 x id d2 s2 c l r :
  sane snap -> prev_unc snap = [] ->
  linked cfg snap false d1 s1 -> apply_directs (dbg cfg) (d_order (overlay d1)) snap = Ok s1 ->
  steps cfg (below (size snap)) snap fuel delta_default d1 ->
  legit cfg snap fuel d1 x -> good_direct (below (size snap)) x ->
  delta_update x d1 = Ok (id, d2) -> apply_direct (dbg cfg) id x s1 = Ok s2 ->
  comp_change s1 x c l r ->
  (forall ch, char_at s1 c = Some ch -> ch = Constant) /\ ~ inside s1 c l /\ ~ inside s1 c r.
Proof.
  intros S P LK A ST LG G U AD C. pose proof (lk_sane _ _ _ _ _ LK) as S1.
  assert (NC : comp_at s1 (size s1) = None).
  { unfold comp_at, size. rewrite lookup_self. reflexivity. }
  assert (LAST : forall comp r0 nc, last_is d1 comp (DNew (NReducesTo r0)) ->
     to_committed s1 comp = Ok nc ->
     nc < size s1 /\ (forall ch, char_at s1 nc = Some ch -> ch = Constant) /\
     forall p a b, comp_at s1 p = Some (a, b) -> a <> nc /\ b <> nc).
  { intros comp r0 nc LA T.
    destruct (last_new cfg snap fuel d1 s1 comp _ S P ST A LA)
      as (u & s0 & cc & -> & T0 & Z & LC & S0 & G0 & A0 & SP).
    rewrite T in T0. injection T0 as ->. split; [lia|]. split.
    - intros ch. unfold char_at. rewrite LC. cbn in SP.
      destruct (c_spec cc) as [|[] ?|]; cbn in SP; try discriminate. congruence.
    - intros p a b E.
      destruct (step_comp _ _ _ _ _ S0 G0 A0 ltac:(discriminate)) as [[K _]|(? & ? & ? & K & _)];
        [|inversion K].
      rewrite K in E. apply comp_range in E; [lia|exact S0]. }
  assert (GS : good_direct (below (size s1)) x).
  { eapply good_direct_mono; [|exact G]. intros j. apply below_mono.
    pose proof (lk_size _ _ _ _ _ LK). lia. }
  destruct C as [a b na nb Ta Tb N|c0 r0 cc nc nr Tc Tr N|c0 l0 cc nc nl Tc Tl N|c0 cc nc Tc
                |c0 ch a b nc nl nr Tc Tl Tr ND CA].
  - split; [|split].
    + intros ch. unfold char_at, size. rewrite lookup_self. discriminate.
    + intros I. assert (na = size s1).
      { apply (not_part_inside s1 _ _) in I; [exact I|]. intros p l r E.
        apply comp_range in E; [lia|exact S1]. }
      apply to_committed_lt in Ta; [lia|exact S1|apply GS].
    + intros I. assert (nb = size s1).
      { apply (not_part_inside s1 _ _) in I; [exact I|]. intros p l r E.
        apply comp_range in E; [lia|exact S1]. }
      apply to_committed_lt in Tb; [lia|exact S1|apply GS].
  - inversion LG; subst.
    match goal with H : compose_delta _ _ _ _ = Ok (DNew _) |- _ =>
      unfold compose_delta in H; apply obind_ok in H; destruct H as (? & _ & H) end.
    repeat match goal with H : match ?y with _ => _ end = Ok (DNew _) |- _ =>
      destruct y; try discriminate H end.
  - inversion LG; subst.
    2:{ match goal with H : compose_delta _ _ _ _ = Ok (DNew _) |- _ =>
      unfold compose_delta in H; apply obind_ok in H; destruct H as (? & _ & H) end.
      repeat match goal with H : match ?y with _ => _ end = Ok (DNew _) |- _ =>
      destruct y; try discriminate H end. }
    match goal with H : last_is _ _ _ |- _ => destruct (LAST _ _ _ H Tc) as (L1 & L2 & L3) end.
    split; [exact L2|]. split.
    + intros I. apply (not_part_inside s1 _ _ L3) in I. congruence.
    + intros I. apply (leaf_inside s1 _ _ NC) in I. lia.
  - inversion LG; subst.
    2:{ match goal with H : compose_delta _ _ _ _ = Ok (DNew _) |- _ =>
      unfold compose_delta in H; apply obind_ok in H; destruct H as (? & _ & H) end.
      repeat match goal with H : match ?y with _ => _ end = Ok (DNew _) |- _ =>
      destruct y; try discriminate H end. }
    match goal with H : last_is _ _ _ |- _ => destruct (LAST _ _ _ H Tc) as (L1 & L2 & L3) end.
    split; [exact L2|]. split; intros I; apply (leaf_inside s1 _ _ NC) in I; lia.
  - inversion LG as [| | | | | | | | |c1 m ll rr x' B1 B2 K1 K2 R CD EX|]; subst.
    destruct (linked_read _ _ _ _ _ _ _ LK R) as (D & cc & L & SM).
    destruct (linked_comp _ _ _ _ _ _ _ LK R) as (MI & _).
    destruct (compose_not_variable _ _ _ _ _ _ _ _ _ CD SM) as (V & _ & X).
    assert (E : c0 = c1 /\ a = ll /\ b = rr).
    { rewrite MI in X. destruct X as [X|(bl & br & X)]; injection X as -> ->; cbn in CA;
        injection CA as -> ->; auto. }
    destruct E as (-> & -> & ->).
    assert (GX : below (size snap) c1 /\ below (size snap) ll /\ below (size snap) rr).
    { rewrite MI in X. destruct X as [X|(bl & br & X)]; injection X as ->; cbn in G;
        repeat match goal with
        | H : _ /\ _ |- _ => destruct H
        | H : good (_, _) |- _ => destruct H; cbn [fst snd] in *
        end; auto. }
    destruct GX as (G1 & G2 & G3).
    pose proof (lk_size _ _ _ _ _ LK) as Z. pose proof (lk_prev _ _ _ _ _ LK) as PV.
    destruct (com_rho snap s1 _ PV c1 nc G1 Tc) as [-> D1].
    destruct (com_rho snap s1 _ PV ll nl G2 Tl) as [-> D2].
    destruct (com_rho snap s1 _ PV rr nr G3 Tr) as [-> D3].
    rewrite !NoDup_cons_iff in ND. cbn in ND.
    split; [|split].
    + intros ch'. unfold char_at. rewrite L. destruct (c_spec cc) as [|[] ?|] eqn:E; try discriminate.
      intros [= <-]. eapply V. reflexivity.
    + apply (contains_sound cfg snap false d1 s1 fuel ll c1 LK D1 B1). intros ->. tauto.
    + apply (contains_sound cfg snap false d1 s1 fuel rr c1 LK D1 B2). intros ->. tauto.
Qed.

Lemma legit_no_remove cfg snap fuel d h s x c l r :
  linked cfg snap h d s -> legit cfg snap fuel d x -> x <> DCompose c (Remove (l, r)).
Proof.
  intros LK LG ->. inversion LG as [| | | | | | | | |c1 m ll rr x' B1 B2 K1 K2 R CD EX|]; subst.
  destruct (linked_read _ _ _ _ _ _ _ LK R) as (D & cc & L & SM).
  destruct (compose_not_variable _ _ _ _ _ _ _ _ _ CD SM) as (_ & _ & X).
  destruct X as [X|(? & ? & X)]; discriminate X.
Qed.

(** ** C22 *)
Lemma wf_add s s' c l r :
  well_founded (part s) ->
  (forall i, comp_at s' i = if Nat.eqb i c then Some (l, r) else comp_at s i) ->
  ~ inside s c l -> ~ inside s c r -> well_founded (part s').
Proof.
  intros W E Nl Nr.
  assert (PS : forall p i, part s' p i -> (i = c /\ (p = l \/ p = r)) \/ (i <> c /\ part s p i)).
  { intros p i (a & b & C & O). apply composed_at in C. rewrite E in C.
    destruct (Nat.eqb_spec i c) as [->|N].
    - injection C as -> ->. auto.
    - right. split; [exact N|]. exists a, b. split; [apply composed_at; exact C|exact O]. }
  assert (OUT : forall i, ~ inside s c i -> Acc (part s') i).
  { intros i. induction (W i) as [i _ IH]. intros N. constructor. intros p Hp.
    destruct (PS p i Hp) as [(-> & _)|(_ & Q)]; [destruct N; constructor|].
    apply IH; [exact Q|]. intros I. apply N. destruct Q as (a & b & C & O).
    eapply inside_part; [apply composed_at; exact C|exact O|exact I]. }
  assert (AC : Acc (part s') c).
  { constructor. intros p Hp. destruct (PS p c Hp) as [(_ & [->| ->])|(N & _)]; auto; tauto. }
  intros i. induction (W i) as [i _ IH]. constructor. intros p Hp.
  destruct (PS p i Hp) as [(-> & [->| ->])|(N & Q)]; auto.
Qed.

Lemma wf_same s s' :
  well_founded (part s) -> (forall i, comp_at s' i = comp_at s i) -> well_founded (part s').
Proof.
  intros W E i. induction (W i) as [i _ IH]. constructor. intros p (l & r & C & O). apply IH.
  exists l, r. split; [|exact O]. apply composed_at. apply composed_at in C. rewrite E in C. exact C.
Qed.

Lemma good_now cfg snap h d s x :
  linked cfg snap h d s -> good_direct (below (size snap)) x -> good_direct (below (size s)) x.
Proof.
  intros LK. apply good_direct_mono. intros j. apply below_mono.
  pose proof (lk_size _ _ _ _ _ LK). lia.
Qed.

Lemma step_well_founded cfg snap fuel :
  sane snap -> prev_unc snap = [] ->
  step_keeps cfg snap fuel false (fun _ s => compositions_are_well_founded s).
Proof.
  intros S P d1 s1 x id d2 s2 LK A ST LG G _ U AD _ W.
  pose proof (lk_sane _ _ _ _ _ LK) as S1.
  destruct (step_comp _ _ _ _ _ S1 (good_now _ _ _ _ _ _ LK G) AD) as [[K _]|(c & l & r & C & K & _)].
  - intros c l r. eapply legit_no_remove; eauto.
  - apply (wf_same s1); assumption.
  - destruct (legit_comp cfg snap fuel d1 s1 x id d2 s2 c l r S P LK A ST LG G U AD C) as (_ & N1 & N2).
    apply (wf_add s1 s2 c l r); assumption.
Qed.

(** ** C12, the variables *)
Lemma step_variables cfg snap fuel s0 :
  sane snap -> prev_unc snap = [] ->
  step_keeps cfg snap fuel false (fun _ s => variables_stay s0 s).
Proof.
  intros S P d1 s1 x id d2 s2 LK A ST LG G _ U AD _ V n ch N H.
  specialize (V n ch N H). apply leaf_variable_at in V. apply leaf_variable_at.
  pose proof (lk_sane _ _ _ _ _ LK) as S1.
  destruct (step_comp _ _ _ _ _ S1 (good_now _ _ _ _ _ _ LK G) AD) as [(_ & K & _)|(c & l & r & C & _ & K)].
  - intros c l r. eapply legit_no_remove; eauto.
  - apply K, V.
  - apply K; [|exact V]. intros ->.
    destruct (legit_comp cfg snap fuel d1 s1 x id d2 s2 c l r S P LK A ST LG G U AD C) as (N1 & _).
    destruct (N (N1 _ V)).
Qed.

(** ** C13 *)
Lemma kept_listed dbg : kept dbg reductions_are_listed.
Proof.
  intros s id d s' S G A R n r. rewrite reduces_at, from_at_spec.
  destruct (step_red_effect _ _ _ _ _ (sane_numbers s S) A) as (red & from & E & E1 & E2).
  rewrite E1, E2. apply (red_effect_listed s d red from (sane_numbers s S)); [|exact E|].
  - intros y ->. apply apply_direct_effect in A; [|apply S]. destruct A as (_ & us & EF & _).
    inversion EF; subst. eexists. split; [eassumption|]. eapply (to_committed_lt s); eauto.
  - intros m y. rewrite <- reduces_at, <- from_at_spec. apply R.
Qed.

(** ** C16, first half *)
Lemma legit_plain cfg snap fuel d x s s' id :
  legit cfg snap fuel d x -> self_numbered s -> apply_direct (dbg cfg) id x s = Ok s' ->
  concrete_concepts s' = concrete_concepts s.
Proof.
  intros LG W A. apply apply_direct_effect in A; [|exact W]. destruct A as ((_ & F & _) & _).
  rewrite F. destruct LG; try reflexivity.
  destruct (compose_delta_shape _ _ _ _ _ H4) as (ch & ->). reflexivity.
Qed.
