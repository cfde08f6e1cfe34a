(** A concept has at most one name, and what a symbol denotes bears that symbol. *)
From Verif Require Import Start Snapshot Delta StoreSpec NameSpec MapFacts StoreFacts AstFacts RangeFacts History Sim SimRead Steps StoreInv Links
  Meaning Names StoreLaws.
From Coq Require Import String List Bool PeanoNat Relations Lia.
Import ListNotations.

(** ** The string kept for a text has that text *)
Definition strings_true (s : snapshot) : Prop :=
  forall t n, aget text_eqb t (string_map s) = Some n -> has_text s n t.

Lemma step_true dbg id x s s' : self_numbered s -> apply_direct dbg id x s = Ok s' -> strings_true s -> strings_true s'.
Proof.
  intros W A T t n H. pose proof (step_extends _ _ _ _ _ W A) as (_ & X & _).
  pose proof (apply_direct_effect dbg s W id x s' A) as ((F & _) & us & E & _ & O).
  rewrite F in H. destruct x as [[t0| | | | | | |]|c ch|c ch|c]; try (apply X, T, H).
  rewrite (aget_aset _ text_eqb_spec) in H. destruct (text_eqb_spec t t0) as [->|N]; [|apply X, T, H].
  injection H as <-. inversion E; subst. exists (plain (List.length (concepts s)) (StringPart t0)). split; [|reflexivity].
  rewrite O. cbn [aget]. rewrite Nat.eqb_refl. cbn [base_of]. rewrite lookup_grown, Nat.eqb_refl. reflexivity.
Qed.

Lemma execute_strings cfg fuel t c r c' : fair cfg -> ready c -> execute cfg fuel t c = Ok (r, c') ->
  strings_true (c_snap c) -> strings_true (c_snap c').
Proof.
  intros F RD E TR.
  destruct (execute_run cfg fuel t c r c' F RD E) as (z' & c1 & E1' & _ & _ & ST & G & L & A & _).
  pose proof (ready_sane c RD) as S. pose proof (ready_prev c RD) as P.
  pose proof A as A'. unfold apply in A'. oinv. subst. rewrite (single_order _ L) in *.
  match goal with H : apply_directs _ _ _ = Ok ?x |- _ => rename H into A1; rename x into s1 end.
  match goal with H : apply_strings _ _ _ = Ok ?x |- _ => rename H into A2; rename x into s2 end.
  match goal with H : delta_iter_string _ _ = Ok ?x |- _ => rename H into A3; rename x into ss end.
  destruct (steps_keep cfg (c_snap c) fuel false (fun d s => strings_true s /\ strings_linked (c_snap c) d s)
              (c_delta c1) s1 S P ST A1 ltac:(discriminate)) as (LK & T & SL).
  { intros d1 sa x id d2 sb H1 H2 H3 H4 H5 H6 H7 H8 H9 [T1 T2]. split.
    - exact (step_true _ _ _ _ _ (sane_numbers _ (lk_sane _ _ _ _ _ H1)) H8 T1).
    - exact (step_strings cfg (c_snap c) fuel false d1 sa x id d2 sb H1 H2 H3 H4 H5 H6 H7 H8 H9 T2). }
  { split; [exact TR|]. intros u. reflexivity. }
  destruct (apply_split _ _ _ _ S L G A) as (s1' & A1' & C1 & C2 & _).
  rewrite A1 in A1'. injection A1' as <-.
  assert (Q : forall u, aget text_eqb u (string_map (c_snap c')) = aget text_eqb u (string_map s1)).
  { intros u.
    match goal with H : Ok _ = Ok _ |- _ => injection H as <- | H : _ = c_snap c' |- _ => rewrite <- H end. cbn.
    apply (apply_strings_same cfg (c_snap c) false (c_delta c1) s1 ss s2 LK SL); [|exact A2].
    intros v ch I. pose proof (iter_string_in _ _ _ _ _ L A3 I) as J. split; [exact J|].
    apply (aget_in _ text_eqb_spec) in J.
    assert (G' : good_layer (below (size (c_snap c))) (overlay (c_delta c1))).
    { apply G. rewrite L. left. reflexivity. }
    exact (proj2 (proj1 G' _ J)). }
  intros u n U. rewrite Q in U. apply T in U. destruct U as (k & U & U1). exists k. split; [|exact U1].
  unfold lookup in *. rewrite C1. exact U.
Qed.
Definition has_text_b (s : snapshot) (n : nat) (t : text) : bool :=
  match lookup s n with Some c => match c_spec c with StringPart u => text_eqb t u | _ => false end | None => false end.
Lemma reachable_strings b c : reachable b c -> strings_true (c_snap c).
Proof.
  induction 1 as [|cfg fuel t c r c' F D R IH E].
  - assert (K : forallb (fun '(t, n) => has_text_b (c_snap base_context) n t) (string_map (c_snap base_context)) = true)
      by (vm_compute; reflexivity).
    intros t n H. apply (aget_in _ text_eqb_spec) in H. apply (proj1 (forallb_forall _ _) K) in H. cbn beta iota in H.
    unfold has_text_b in H. unfold has_text. destruct (lookup (c_snap base_context) n) as [k|]; [|discriminate H].
    exists k. split; [reflexivity|]. destruct (c_spec k) as [|?|u]; try discriminate H.
    destruct (text_eqb_spec t u); [congruence|discriminate H].
  - exact (execute_strings cfg fuel t c r c' F (reachable_ready _ _ R) E IH).
Qed.

(** ** Labels *)
Section Labels.
  Variable s : snapshot.
  Hypothesis UC : compositions_are_unique s.
  Hypothesis UL : forall a b, built_in s a CLabel -> built_in s b CLabel -> a = b.

  Lemma reduces_one a b c : reduces s a b -> reduces s a c -> b = c.
  Proof. rewrite !reduces_at. congruence. Qed.
  Lemma text_ends n t : has_text s n t -> forall m, ~ reduces s n m.
  Proof. intros (c & L & E) m (c' & k & L' & E'). rewrite L in L'. injection L' as <-. congruence. Qed.
  Lemma text_one n t u : has_text s n t -> has_text s n u -> t = u.
  Proof. intros (c & L & E) (c' & L' & E'). rewrite L in L'. injection L' as <-. congruence. Qed.
  Lemma chain_end a b c : clos_trans nat (reduces s) a b -> clos_trans nat (reduces s) a c ->
    (forall m, ~ reduces s b m) -> (forall m, ~ reduces s c m) -> b = c.
  Proof.
    intros H K. apply clos_trans_t1n in H, K. revert c K. induction H as [a b H|a x b H H' IH]; intros c K NB NC.
    - destruct K as [c K|y c K K'].
      + eapply reduces_one; eassumption.
      + rewrite (reduces_one _ _ _ H K) in *. exfalso. destruct K'; eapply NB; eassumption.
    - destruct K as [c K|y c K K'].
      + rewrite (reduces_one _ _ _ H K) in *. exfalso. destruct H'; eapply NC; eassumption.
      + rewrite (reduces_one _ _ _ K H) in *. exact (IH c K' NB NC).
  Qed.
  (** A concept carries at most one label. *)
  Lemma label_one x t u : carries_label s x t -> carries_label s x u -> t = u.
  Proof.
    intros (l & k & v & B & C & R & T) (l' & k' & v' & B' & C' & R' & T').
    pose proof (UL _ _ B' B). subst l'. pose proof (UC _ _ _ _ C' C). subst k'.
    pose proof (chain_end _ _ _ R' R (text_ends _ _ T') (text_ends _ _ T)). subst v'. exact (text_one _ _ _ T T').
  Qed.

  (** What a text leads to carries it as its label. *)
  Hypothesis LR : listed_reductions_are_real s.
  Hypothesis ST : strings_true s.
  Lemma found_carries t x : found_under s t x -> carries_label s x t.
  Proof.
    intros (v & k & l & A & C & K & B). exists l, k, v. split; [exact B|]. split; [exact K|]. split; [|apply ST, A].
    clear - C LR. induction C as [a b H|a b d _ IH _ IH'].
    - apply t_step, LR, H.
    - eapply t_trans; eassumption.
  Qed.

  (** ** Asking for the label *)
  Variable cfg : config.
  Hypothesis F : fair cfg.
  Hypothesis LC : compositions_are_listed s.
  Lemma normal_form_end fuel : forall a b, clos_trans nat (reduces s) a b -> (forall m, ~ reduces s b m) -> forall v,
    get_normal_form cfg s delta_default fuel (Committed a) = Ok v -> v = Some (Committed b).
  Proof.
    induction fuel as [|fuel IH]; intros a b C N v E; [discriminate E|]. cbn [get_normal_form] in E.
    apply obind_ok in E. destruct E as (m & R & E). apply read_back in R. destruct R as (c & L & ->).
    assert (Q : forall y, reduces s a y -> m_reduction (mixed_of_committed c) = Some (Committed y)).
    { intros y (c' & k & L' & S'). rewrite L in L'. injection L' as <-. cbn. unfold get_reduction. rewrite S'. reflexivity. }
    apply clos_trans_t1n in C. destruct C as [b H|y b H C].
    - rewrite (Q _ H) in E. apply obind_ok in E. destruct E as (w & E1 & [= <-]).
      destruct fuel as [|fuel]; [discriminate E1|]. cbn [get_normal_form] in E1. apply obind_ok in E1.
      destruct E1 as (m' & R' & E1). apply read_back in R'. destruct R' as (c' & L' & ->).
      assert (K : m_reduction (mixed_of_committed c') = None).
      { cbn. unfold get_reduction. destruct (c_spec c') as [|k [y|]|] eqn:SP; try reflexivity.
        exfalso. apply (N y). exists c', k. auto. }
      rewrite K in E1. injection E1 as <-. reflexivity.
    - rewrite (Q _ H) in E. apply obind_ok in E. destruct E as (w & E1 & [= <-]).
      rewrite (IH y b (clos_t1n_trans _ _ _ _ C) N w E1). reflexivity.
  Qed.
  Lemma label_of_committed l : concrete_concept_id cfg s delta_default CLabel = Ok (Some (Committed l)) -> built_in s l CLabel ->
    forall fuel x t v, carries_label s x t -> get_label cfg s delta_default fuel (Committed x) = Ok v -> v = Some t.
  Proof.
    intros CI BL fuel x t v (l' & k & w & B & C & R & T) E. pose proof (UL _ _ B BL). subst l'. destruct fuel as [|fuel]; [discriminate E|].
    cbn [get_label] in E. unfold get_concept_of_label in E. rewrite CI in E. cbn [obind] in E.
    destruct (LC _ _ _ C) as [_ (c & L & H)]. rewrite (read_at cfg s x c L) in E. cbn [obind] in E.
    replace (m_find_as_hand (mixed_of_committed c) (Committed l) HRight) with (Some (Committed k)) in E
      by (cbn; unfold find_as_hand; rewrite H; reflexivity).
    apply obind_ok in E. destruct E as (n & E1 & E). rewrite (normal_form_end _ _ _ R (text_ends _ _ T) _ E1) in E.
    destruct T as (cw & Lw & Sw). rewrite (read_at cfg s w cw Lw) in E. cbn in E. injection E as <-.
    unfold get_string. rewrite Sw. reflexivity.
  Qed.
End Labels.

Lemma concrete_id_plain cfg s cc : fair cfg ->
  concrete_concept_id cfg s delta_default cc = Ok (option_map Committed (bimap_by_right cc (concrete_concepts s))).
Proof.
  intros F. unfold concrete_concept_id, delta_iter_concepts. cbn.
  rewrite (Permutation.Permutation_nil (Permutation.Permutation_sym (F (ODelta 0) (cid * list cdelta)%type []))). reflexivity.
Qed.
