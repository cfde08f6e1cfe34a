(** Lemmas about the association lists and sets of Base.v. *)
From Verif Require Import Base Ids.
From Coq Require Import List Bool NArith Lia Permutation.
Import ListNotations.

Section MapFacts.
  Context {K V : Type} (eqb : K -> K -> bool).
  Hypothesis eqb_spec : forall a b, reflect (a = b) (eqb a b).

  Lemma aget_aset k k' (v : V) m :
    aget eqb k (aset eqb k' v m) = if eqb k k' then Some v else aget eqb k m.
  Proof.
    induction m as [|[k0 v0] m IH]; cbn.
    - reflexivity.
    - destruct (eqb_spec k' k0) as [<-|N].
      + cbn. now destruct (eqb k k').
      + cbn. rewrite IH. destruct (eqb_spec k k0) as [->|N']; [|reflexivity].
        destruct (eqb_spec k0 k') as [->|]; [contradiction|reflexivity].
  Qed.

  Lemma aget_adel k k' (m : list (K * V)) :
    aget eqb k (adel eqb k' m) = if eqb k k' then None else aget eqb k m.
  Proof.
    induction m as [|[k0 v0] m IH]; cbn.
    - now destruct (eqb k k').
    - destruct (eqb_spec k' k0) as [<-|N].
      + rewrite IH. now destruct (eqb k k').
      + cbn. rewrite IH. destruct (eqb_spec k k0) as [->|N']; [|reflexivity].
        destruct (eqb_spec k0 k') as [->|]; [contradiction|reflexivity].
  Qed.

  Lemma aget_In k v (m : list (K * V)) : aget eqb k m = Some v -> In (k, v) m.
  Proof.
    induction m as [|[k0 v0] m IH]; cbn; [discriminate|].
    destruct (eqb_spec k k0) as [->|N].
    - intros H; injection H as ->. now left.
    - intros H. right. auto.
  Qed.

  Lemma aget_None k (m : list (K * V)) : aget eqb k m = None <-> ~ In k (map fst m).
  Proof.
    induction m as [|[k0 v0] m IH]; cbn; [tauto|].
    destruct (eqb_spec k k0) as [->|N].
    - split; [discriminate|]. intros H. exfalso. apply H. now left.
    - rewrite IH. split; [intros H [G|G]; [congruence|auto]|tauto].
  Qed.

  Lemma In_aget k v (m : list (K * V)) :
    NoDup (map fst m) -> In (k, v) m -> aget eqb k m = Some v.
  Proof.
    induction m as [|[k0 v0] m IH]; cbn; [intros _ []|].
    intros Hn [H|H]; inversion Hn as [|? ? Hni Hn']; subst.
    - injection H as -> ->. destruct (eqb_spec k k); [reflexivity|contradiction].
    - destruct (eqb_spec k k0) as [->|N]; [|auto].
      exfalso. apply Hni. apply in_map_iff. exists (k0, v). auto.
  Qed.

  Lemma aset_keys k v (m : list (K * V)) x :
    In x (map fst (aset eqb k v m)) <-> x = k \/ In x (map fst m).
  Proof.
    induction m as [|[k0 v0] m IH]; cbn; [intuition|].
    destruct (eqb_spec k k0) as [->|N]; cbn; [intuition|]. rewrite IH. intuition.
  Qed.

  Lemma aset_NoDup k v (m : list (K * V)) :
    NoDup (map fst m) -> NoDup (map fst (aset eqb k v m)).
  Proof.
    induction m as [|[k0 v0] m IH]; cbn.
    - constructor; [intros []|constructor].
    - intros H. inversion H as [|? ? H1 H2]; subst. destruct (eqb_spec k k0) as [->|N]; cbn.
      + now constructor.
      + constructor; [|auto]. rewrite aset_keys. intros [E|G]; [congruence|contradiction].
  Qed.

  Lemma adel_keys k (m : list (K * V)) x :
    In x (map fst (adel eqb k m)) <-> x <> k /\ In x (map fst m).
  Proof.
    induction m as [|[k0 v0] m IH]; cbn; [tauto|].
    destruct (eqb_spec k k0) as [->|N]; cbn; rewrite IH; intuition congruence.
  Qed.

  Lemma adel_NoDup k (m : list (K * V)) :
    NoDup (map fst m) -> NoDup (map fst (adel eqb k m)).
  Proof.
    induction m as [|[k0 v0] m IH]; cbn; [constructor|].
    intros H. inversion H as [|? ? H1 H2]; subst. destruct (eqb_spec k k0) as [->|N]; cbn; auto.
    constructor; [|auto]. rewrite adel_keys. tauto.
  Qed.
End MapFacts.

Section SetFacts.
  Context {K : Type} (eqb : K -> K -> bool).
  Hypothesis eqb_spec : forall a b, reflect (a = b) (eqb a b).

  Lemma smem_In k s : smem eqb k s = true <-> In k s.
  Proof.
    unfold smem. rewrite existsb_exists. split.
    - intros (x & H & E). destruct (eqb_spec k x); [now subst|discriminate].
    - intros H. exists k. split; [exact H|]. now destruct (eqb_spec k k).
  Qed.

  Lemma smem_false k s : smem eqb k s = false <-> ~ In k s.
  Proof.
    rewrite <- smem_In. destruct (smem eqb k s); intuition congruence.
  Qed.

  Lemma sadd_In k s x : In x (sadd eqb k s) <-> x = k \/ In x s.
  Proof.
    unfold sadd. destruct (smem eqb k s) eqn:E.
    - apply smem_In in E. split; [auto|]. intros [->|]; auto.
    - rewrite in_app_iff. cbn. intuition.
  Qed.

  Lemma sadd_NoDup k s : NoDup s -> NoDup (sadd eqb k s).
  Proof.
    unfold sadd. destruct (smem eqb k s) eqn:E; [auto|].
    intros H. apply smem_false in E.
    apply NoDup_rev in H. rewrite <- (rev_involutive s).
    rewrite <- (rev_involutive (_ ++ [k])), rev_app_distr. apply NoDup_rev. cbn. rewrite rev_involutive.
    constructor; [|exact H]. now rewrite <- in_rev.
  Qed.

  Lemma sdel_In k s x : In x (sdel eqb k s) <-> x <> k /\ In x s.
  Proof.
    unfold sdel. rewrite filter_In. destruct (eqb_spec k x) as [->|N]; cbn; intuition congruence.
  Qed.

  Lemma sextend_In s t x : In x (sextend eqb s t) <-> In x s \/ In x t.
  Proof.
    unfold sextend. revert s; induction t as [|k t IH]; intros s; cbn; [tauto|].
    rewrite IH, sadd_In. intuition.
  Qed.
End SetFacts.

Lemma cid_eqb_spec a b : reflect (a = b) (cid_eqb a b).
Proof.
  destruct a as [n|n], b as [m|m]; cbn; try (constructor; congruence);
    destruct (Nat.eqb_spec n m); constructor; congruence.
Qed.

Lemma text_eqb_spec a b : reflect (a = b) (text_eqb a b).
Proof. unfold text_eqb. destruct (list_eq_dec N.eq_dec a b); constructor; auto. Qed.

Lemma cct_eqb_spec a b : reflect (a = b) (cct_eqb a b).
Proof. unfold cct_eqb. destruct (cct_eq_dec a b); constructor; auto. Qed.
