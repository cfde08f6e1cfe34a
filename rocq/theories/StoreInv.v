(** Invariants of the committed store kept by every change. *)
From Verif Require Import Snapshot StoreSpec MapFacts AstFacts StoreFacts.
From Coq Require Import List String.
Import ListNotations.
Local Open Scope zia_scope.

Lemma eqb_refl_nat a : Nat.eqb a a = true. Proof. apply Nat.eqb_refl. Qed.

Lemma lookup_self s : lookup s (List.length (concepts s)) = None.
Proof. apply nth_error_None. auto. Qed.

(** Reading [aget i us] for the concrete lists of [effect]. *)
Ltac cases_at :=
  repeat match goal with
  | H : context [Nat.eqb ?a ?b] |- _ => destruct (Nat.eqb_spec a b); subst; cbn in H
  | |- context [Nat.eqb ?a ?b] => destruct (Nat.eqb_spec a b); subst; cbn
  end.

(** How a concept may change: same number; texts and built-ins stay; abstract stays
    abstract. *)
Definition grows_to (c c' : concept nat) : Prop :=
  c_id c' = c_id c /\
  match c_spec c with
  | Abstract _ _ => exists k r, c_spec c' = Abstract k r
  | sp => c_spec c' = sp
  end.
Lemma grows_refl c : grows_to c c.
Proof. split; [reflexivity|]. destruct (c_spec c); eauto. Qed.

Lemma effect_written dbg s id d us i c :
  self_numbered s -> effect dbg s id d us -> aget Nat.eqb i us = Some c ->
  (i = List.length (concepts s) /\ c_id c = i /\ exists nd, d = DNew nd) \/
  (exists b, lookup s i = Some b /\ grows_to b c).
Proof.
  intros W E.
  assert (G : forall j b, lookup (grown s) j = Some b -> j <> List.length (concepts s) ->
                          lookup s j = Some b).
  { intros j b. rewrite lookup_grown. destruct (Nat.eqb_spec j (List.length (concepts s))); tauto. }
  pose proof (grown_self_numbered _ W) as W'.
  destruct E; cbn; intros A; cases_at;
    repeat match goal with H : Some _ = Some _ |- _ => injection H; clear H; intros <- end;
    try discriminate;
    try (left; split; [reflexivity|split; [solve [reflexivity|cbn; eauto]|eauto]]; fail);
    right;
    match goal with
    | H : lookup s ?j = Some ?b |- context [lookup s ?j] => exists b; split; [assumption|]
    | H : lookup (grown s) ?j = Some ?b |- context [lookup s ?j] =>
      exists b; split; [apply G; assumption|]
    end;
    (split; [reflexivity|]; cbn;
     repeat match goal with H : c_spec _ = _ |- _ => rewrite H end; cbn; eauto;
     match goal with |- match ?x with _ => _ end => destruct x; cbn; eauto end).
Qed.

Lemma step_lookup dbg s id d s' :
  self_numbered s -> apply_direct dbg id d s = Ok s' ->
  forall i, match lookup s i with
            | Some b => exists c, lookup s' i = Some c /\ grows_to b c
            | None => forall c, lookup s' i = Some c ->
                        i = List.length (concepts s) /\ c_id c = i
            end.
Proof.
  intros W H i. apply apply_direct_effect in H; [|exact W].
  destruct H as (_ & us & E & _ & O). rewrite O.
  pose proof (effect_written dbg s id d us i) as P.
  assert (B : forall b, lookup s i = Some b -> lookup (base_of s d) i = Some b).
  { intros b L. destruct d; cbn; auto. rewrite lookup_grown.
    destruct (Nat.eqb_spec i (List.length (concepts s))); subst; [|auto].
    rewrite lookup_self in L. discriminate. }
  destruct (lookup s i) as [b|] eqn:L.
  - rewrite (B b eq_refl). destruct (aget Nat.eqb i us) as [c|] eqn:A.
    + cbn. exists c. split; [reflexivity|].
      destruct (P c W E eq_refl) as [(-> & _)|(b' & [= <-] & G)]; [|exact G].
      rewrite lookup_self in L. discriminate.
    + exists b. split; [reflexivity|apply grows_refl].
  - intros c. destruct (aget Nat.eqb i us) as [c'|] eqn:A.
    + destruct (P c' W E eq_refl) as [(-> & Q & _)|(b' & L' & G)]; [|discriminate].
      destruct (lookup (base_of s d) _); [|discriminate]. cbn. intros [= <-]. auto.
    + destruct d; cbn; intros X; try congruence.
      rewrite lookup_grown in X. destruct (Nat.eqb_spec i (List.length (concepts s))); [|congruence].
      injection X as <-. auto.
Qed.

Lemma step_self_numbered dbg s id d s' :
  self_numbered s -> apply_direct dbg id d s = Ok s' -> self_numbered s'.
Proof.
  intros W H i c L. pose proof (step_lookup _ _ _ _ _ W H i) as S.
  destruct (lookup s i) eqn:E.
  - destruct S as (c' & L' & G & _). rewrite L in L'. injection L' as <-.
    rewrite G. apply W. exact E.
  - destruct (S c L). auto.
Qed.

Lemma grows_extends s s' :
  (forall i b, lookup s i = Some b -> exists c, lookup s' i = Some c /\ grows_to b c) ->
  extends s s'.
Proof.
  intros H. split; [|split; [|split]].
  - intros i N. destruct (lookup s i) eqn:E; [|congruence].
    destruct (H _ _ E) as (c' & -> & _). discriminate.
  - intros i t (c & L & S). destruct (H _ _ L) as (c' & L' & _ & G).
    rewrite S in G. exists c'. auto.
  - intros i t (c & L & S). destruct (H _ _ L) as (c' & L' & _ & G).
    rewrite S in G. exists c'. auto.
  - intros i (c & k & r & L & S). destruct (H _ _ L) as (c' & L' & _ & G).
    rewrite S in G. destruct G as (k' & r' & G). exists c', k', r'. auto.
Qed.

Lemma step_extends dbg s id d s' :
  self_numbered s -> apply_direct dbg id d s = Ok s' -> extends s s'.
Proof.
  intros W H. apply grows_extends. intros i b L.
  pose proof (step_lookup _ _ _ _ _ W H i) as S. rewrite L in S. exact S.
Qed.

Lemma extends_refl s : extends s s.
Proof. split; [|split; [|split]]; auto. Qed.
Lemma extends_trans a b c : extends a b -> extends b c -> extends a c.
Proof.
  intros (A1 & A2 & A3 & A4) (B1 & B2 & B3 & B4).
  split; [|split; [|split]]; auto.
Qed.

(** ** C13 *)
Lemma reduces_get s n c r : lookup s n = Some c -> (reduces s n r <-> get_reduction c = Some r).
Proof.
  intros L. split.
  - intros (c' & k & L' & S). assert (c' = c) by congruence. subst.
    unfold get_reduction. rewrite S. reflexivity.
  - unfold get_reduction. destruct (c_spec c) as [|k red|] eqn:S; try discriminate.
    intros ->. exists c, k. auto.
Qed.

Definition known (s : snapshot) (id : cid) : Prop :=
  exists n, to_committed s id = Ok n /\ n < List.length (concepts s).

(** The reduction of a concept, and who is listed as reducing to it, as functions of its
    number. *)
Definition red_at (s : snapshot) (i : nat) : option nat :=
  match lookup s i with Some c => get_reduction c | None => None end.
Definition from_at (s : snapshot) (i : nat) : list nat :=
  match lookup s i with Some c => reduces_from c | None => [] end.
Lemma reduces_at s n r : reduces s n r <-> red_at s n = Some r.
Proof.
  unfold red_at. destruct (lookup s n) as [c|] eqn:L.
  - apply reduces_get. exact L.
  - split; [intros (c & k & L' & _); congruence|discriminate].
Qed.
Lemma from_at_spec s r n : lists_reduction_from s r n <-> In n (from_at s r).
Proof.
  unfold lists_reduction_from, from_at. destruct (lookup s r) as [c|]; split.
  - intros (c' & [= <-] & H). auto.
  - eauto.
  - intros (c' & ? & _). discriminate.
  - intros [].
Qed.

(** What a change does to the reduction relation. *)
Inductive red_effect (s : snapshot) : direct -> (nat -> option nat) -> (nat -> list nat) -> Prop :=
| ReSame d : (forall r, d <> DNew (NReducesTo r)) -> (forall u c, d <> DReduce u c) ->
    red_effect s d (red_at s) (from_at s)
| ReNew r nr : to_committed s r = Ok nr ->
    nr <= List.length (concepts s) ->
    red_effect s (DNew (NReducesTo r))
      (fun i => if Nat.eqb i (List.length (concepts s)) then Some nr else red_at s i)
      (fun i => if Nat.eqb i (List.length (concepts s)) then []
                else if Nat.eqb i nr then sadd Nat.eqb (List.length (concepts s)) (from_at s i)
                else from_at s i)
| ReCreate x y nx ny : to_committed s x = Ok nx -> to_committed s y = Ok ny -> nx <> ny ->
    ny < List.length (concepts s) ->
    red_effect s (DReduce x (Create y))
      (fun i => if Nat.eqb i nx then Some ny else red_at s i)
      (fun i => if Nat.eqb i ny then sadd Nat.eqb nx (from_at s i) else from_at s i)
| ReUpdate x y z nx ny nz : to_committed s x = Ok nx -> to_committed s y = Ok ny ->
    to_committed s z = Ok nz -> NoDup [nx; ny; nz] -> nz < List.length (concepts s) ->
    red_effect s (DReduce x (Update y z))
      (fun i => if Nat.eqb i nx then Some nz else red_at s i)
      (fun i => if Nat.eqb i nz then sadd Nat.eqb nx (from_at s i)
                else if Nat.eqb i ny then sdel Nat.eqb nx (from_at s i) else from_at s i)
| ReRemove x y nx ny : to_committed s x = Ok nx -> to_committed s y = Ok ny -> nx <> ny ->
    red_effect s (DReduce x (Remove y))
      (fun i => if Nat.eqb i nx then None else red_at s i)
      (fun i => if Nat.eqb i ny then sdel Nat.eqb nx (from_at s i) else from_at s i).

Lemma lookup_grown_lt s i c : lookup (grown s) i = Some c -> i <= List.length (concepts s).
Proof.
  intros L. apply lookup_lt in L. unfold grown in L. cbn in L. rewrite app_length in L.
  cbn in L. lia.
Qed.

Lemma step_red_effect dbg s id d s' :
  self_numbered s -> apply_direct dbg id d s = Ok s' ->
  exists red from, red_effect s d red from /\
    (forall i, red_at s' i = red i) /\ (forall i, from_at s' i = from i).
Proof.
  intros W H. apply apply_direct_effect in H; [|exact W].
  destruct H as (_ & us & E & _ & O).
  assert (L0 := lookup_self s).
  assert (X : (exists r, d = DNew (NReducesTo r)) \/ (exists u c, d = DReduce u c) \/
              ((forall r, d <> DNew (NReducesTo r)) /\ (forall u c, d <> DReduce u c))).
  { destruct d as [[]| | |]; eauto 6; right; right; split; congruence. }
  destruct X as [(r & ->)|[(u & c & ->)|(N1 & N2)]].
  - inversion E; subst. do 2 eexists. split; [eapply ReNew; [eassumption|eapply lookup_grown_lt; eassumption]|].
    cbn in O. split; intros i; unfold red_at, from_at; rewrite O, !lookup_grown in *;
      cases_at; try reflexivity; try lia; cbn.
    all: repeat match goal with H : lookup _ _ = Some _ |- _ => rewrite H; clear H end;
      cbn; try reflexivity.
  - inversion E; subst; do 2 eexists; (split;
      [first [eapply ReCreate|eapply ReUpdate|eapply ReRemove];
       eauto using nodup_two, lookup_lt|]);
      cbn in O; split; intros i; unfold red_at, from_at; rewrite O;
      repeat match goal with H : NoDup _ |- _ => inversion H; clear H; subst end;
      cbn in *; cases_at; try reflexivity; try tauto;
      repeat match goal with H : lookup _ _ = Some _ |- _ => rewrite H; clear H end;
      cbn; unfold get_reduction; cbn;
      repeat match goal with H : c_spec _ = _ |- _ => rewrite H; clear H end; reflexivity.
  - do 2 eexists. split; [apply ReSame; assumption|].
    assert (K : forall i, match lookup s' i with
                | Some c => get_reduction c = red_at s i /\ reduces_from c = from_at s i
                | None => lookup s i = None end).
    2:{ split; intros i; specialize (K i); unfold red_at, from_at in *;
          destruct (lookup s' i); try tauto; rewrite K; reflexivity. }
    intros i. rewrite O. unfold red_at, from_at.
    destruct E; try (exfalso; eapply N1; reflexivity); try (exfalso; eapply N2; reflexivity);
      cbn; rewrite ?lookup_grown in *; cases_at; rewrite ?L0;
      repeat match goal with
      | H : Some _ = Some _ |- _ => injection H; clear H; intros; subst
      | H : lookup s ?i = Some _ |- context [lookup s ?i] => rewrite H
      end; cbn;
      try (split; try reflexivity; unfold get_reduction; cbn;
           repeat match goal with H : c_spec _ = _ |- _ => rewrite H end; cbn;
           try reflexivity;
           match goal with |- context [abstract_or_concrete ?cc] => destruct cc; reflexivity end);
      try (destruct (lookup s i); auto; fail).
Qed.

Lemma red_effect_listed s d red from :
  self_numbered s -> (forall r, d = DNew (NReducesTo r) -> known s r) ->
  red_effect s d red from ->
  (forall n r, red_at s n = Some r -> In n (from_at s r)) ->
  forall n r, red n = Some r -> In n (from r).
Proof.
  intros W K E R n r. destruct E.
  - apply R.
  - destruct (K r0 eq_refl) as (m & M & L). assert (m = nr) by congruence. subst m.
    cases_at; intros X; rewrite ?(sadd_in _ Nat.eqb_spec); auto; try congruence;
      try (injection X as X); subst; try lia; auto; try congruence.
    apply R in X. unfold from_at in X. rewrite lookup_self in X. destruct X.
  - cases_at; intros X; rewrite ?(sadd_in _ Nat.eqb_spec); auto; congruence.
  - inversion H2; subst. inversion H7; subst. cbn in *.
    cases_at; intros X; rewrite ?(sadd_in _ Nat.eqb_spec), ?(sdel_in _ Nat.eqb_spec);
      auto; try congruence; try tauto; try (injection X as X; subst); tauto || (split; auto).
  - cases_at; intros X; rewrite ?(sdel_in _ Nat.eqb_spec); auto; congruence || (split; auto).
Qed.
