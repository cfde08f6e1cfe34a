(** The tables of the compositions a concept takes part in have one entry for each other concept. *)
From Verif Require Import Snapshot Context StoreSpec StoreFacts StoreInv OneName Sim Links MapFacts RangeFacts History Sample StoreLaws.
From Coq Require Import List PeanoNat Lia.
Import ListNotations.
Local Open Scope zia_scope.

(** zia/src/concepts/mod.rs:1059-1065: [lefthand_of] and [righthand_of] are hash maps, so a key occurs once. *)
Definition hands_keyed (s : snapshot) : Prop :=
  forall k c h, lookup s k = Some c -> NoDup (map fst (hand_of c h)).
Definition keyed (c : concept nat) : Prop := NoDup (map fst (lefthand_of c)) /\ NoDup (map fst (righthand_of c)).

Lemma aset_keys (k v : nat) m : NoDup (map fst m) -> NoDup (map fst (aset Nat.eqb k v m)).
Proof.
  assert (I : forall x m, In x (map fst (aset Nat.eqb k v m)) -> x = k \/ In x (map fst m)).
  { intros x m0. induction m0 as [|[k' v'] m0 IH]; cbn; [intuition|]. destruct (Nat.eqb_spec k k'); cbn; intuition. }
  induction m as [|[k' v'] m IH]; cbn; intros H; [constructor; [intros []|constructor]|].
  destruct (Nat.eqb_spec k k') as [->|Ne]; [exact H|]. cbn. inversion H as [|? ? N D]; subst. constructor; [|exact (IH D)].
  intros J. apply I in J. destruct J as [->|J]; [congruence|exact (N J)].
Qed.
Lemma adel_keys (k : nat) (m : list (nat * nat)) : NoDup (map fst m) -> NoDup (map fst (adel Nat.eqb k m)).
Proof.
  assert (I : forall x (m : list (nat * nat)), In x (map fst (adel Nat.eqb k m)) -> In x (map fst m)).
  { intros x m0. induction m0 as [|[k' v'] m0 IH]; cbn; [intuition|]. destruct (Nat.eqb_spec k k'); cbn; intuition. }
  induction m as [|[k' v'] m IH]; cbn; intros H; [constructor|]. inversion H as [|? ? N D]; subst.
  destruct (Nat.eqb_spec k k') as [->|Ne]; [exact (IH D)|]. cbn. constructor; [|exact (IH D)]. intros J. exact (N (I _ _ J)).
Qed.
Lemma insert_keys dbg k v m m' : insert_into Nat.eqb dbg k v m = Ok m' -> NoDup (map fst m) -> NoDup (map fst m').
Proof. intros E. apply insert_into_ok in E. subst. apply aset_keys. Qed.

Lemma keyed_spec s : hands_keyed s <-> forall k c, lookup s k = Some c -> keyed c.
Proof.
  split.
  - intros H k c L. split; [exact (H k c HLeft L)|exact (H k c HRight L)].
  - intros H k c h L. destruct (H k c L). destruct h; assumption.
Qed.
Lemma effect_keyed dbg s id d us : (forall k c, lookup s k = Some c -> keyed c) -> effect dbg s id d us ->
  forall i c, In (i, c) us -> keyed c.
Proof.
  intros L E.
  assert (L' : forall k c, lookup (grown s) k = Some c -> keyed c).
  { intros k c Lk. rewrite lookup_grown in Lk. destruct (Nat.eqb k _); [|eauto]. injection Lk as <-. split; constructor. }
  destruct E; intros j c' I; cbn [In] in I;
    repeat match goal with
    | H : _ \/ _ |- _ => destruct H
    | H : False |- _ => destruct H
    | H : (_, _) = (_, _) |- _ => injection H; clear H; intros; subst
    end;
    repeat match goal with
    | H : lookup s ?x = Some ?k |- _ => apply L in H; destruct H
    | H : lookup (grown s) ?x = Some ?k |- _ => apply L' in H; destruct H
    end;
    (split; cbn [lefthand_of righthand_of set_left set_right set_from set_spec plain map fst];
      try assumption; try (apply adel_keys; assumption); try (eapply insert_keys; eassumption);
      repeat (constructor; [cbn; tauto|]); try constructor).
Qed.
Lemma kept_keyed dbg : kept dbg hands_keyed.
Proof.
  intros s id d s' S G E H. apply keyed_spec. rewrite keyed_spec in H.
  apply apply_direct_effect in E; [|apply S]. destruct E as (_ & us & E & _ & O).
  intros k c L. rewrite O in L. destruct (aget Nat.eqb k us) as [c'|] eqn:A.
  - apply (effect_keyed _ _ _ _ _ H E k c). apply (aget_in _ Nat.eqb_spec) in A.
    destruct (lookup (base_of s d) k); [injection L as <-; exact A|discriminate].
  - destruct d; cbn [base_of] in L; eauto. rewrite lookup_grown in L. destruct (Nat.eqb k _); [|eauto]. injection L as <-. split; constructor.
Qed.
Definition nodup_keys (m : list (nat * nat)) : bool := nodupb (map fst m).
Lemma reachable_keyed (b : bool) x : reachable b x -> hands_keyed (c_snap x).
Proof.
  apply (reachable_keeps b hands_keyed); [apply kept_keyed| |].
  - intros s s' E _. unfold hands_keyed, lookup. rewrite E. auto.
  - apply keyed_spec. intros k c L. unfold lookup in L. apply nth_error_In in L. revert c L. apply Forall_forall.
    assert (K : forallb (fun c => nodup_keys (lefthand_of c) && nodup_keys (righthand_of c))%bool (concepts (c_snap base_context)) = true)
      by (vm_compute; reflexivity).
    apply Forall_forall. intros c J. rewrite forallb_forall in K. specialize (K c J). apply andb_prop in K. destruct K as [K1 K2].
    split; apply nodupb_spec; assumption.
Qed.
