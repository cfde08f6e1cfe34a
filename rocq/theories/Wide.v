(** Reading the committed store through the layers of a running search. *)
From Verif Require Import Snapshot Search StoreSpec NameSpec MapFacts StoreFacts Questions SearchCaches Names OneName Asking.
From Coq Require Import List PeanoNat Lia Relations.
Import ListNotations.
Local Open Scope zia_scope.

(** A search only adds layers with bound variables of its own. *)
Notation own_variable := [Direct (DNew NBoundVariable)].
Lemma widened d : widens delta_default d ->
  (forall n, delta_concept d (Committed n) = None) /\
  (forall u, delta_concept d (Uncommitted u) = None \/
             (delta_concept d (Uncommitted u) = Some own_variable /\ u < d_num (overlay d))).
Proof.
  remember delta_default as d0 eqn:D. induction 1 as [d0|d0 d W IH|d0 d v d' W IH E]; subst.
  - split; [reflexivity|]. intros u. left. reflexivity.
  - destruct (IH eq_refl) as [A B]. unfold delta_concept in *.
    assert (X : forall id, layers_concept (layers (delta_spawn d)) id = layers_concept (layers d) id).
    { intros id. cbn [delta_spawn layers layers_concept]. cbn [new_layer d_concept aget].
      destruct (layers_concept (layers d) id); reflexivity. }
    split; [intros n; rewrite X; apply A|]. intros u. rewrite X. apply B.
  - destruct (IH eq_refl) as [A B]. clear IH W. destruct d as [o i]. cbn in E. apply obind_ok in E.
    destruct E as ([id o'] & E & [= <- <-]). unfold insert_new in E. apply obind_ok in E.
    destruct E as (o1 & E & [= <- <-]). unfold insert_delta in E. cbn [d_concept d_string d_num d_order] in E.
    unfold delta_concept in *. cbn [layers layers_concept overlay] in *.
    destruct (aget cid_eqb (Uncommitted (d_num o)) (d_concept o)) as [cds|] eqn:G.
    { exfalso. specialize (B (d_num o)). rewrite G in B.
      destruct (layers_concept i (Uncommitted (d_num o))); destruct B as [B|[_ B]]; try discriminate; lia. }
    injection E as <-. cbn [d_concept d_num]. split.
    + intros n. rewrite (aget_aset cid_eqb cid_eqb_spec). destruct (cid_eqb_spec (Committed n) (Uncommitted (d_num o))); [discriminate|].
      apply A.
    + intros u. rewrite (aget_aset cid_eqb cid_eqb_spec). specialize (B u).
      destruct (cid_eqb_spec (Uncommitted u) (Uncommitted (d_num o))) as [[= ->]|Ne].
      * right. rewrite G in B. destruct (layers_concept i _); [destruct B as [B|[_ B]]; [discriminate|lia]|].
        split; [reflexivity|lia].
      * destruct B as [B|[B Lt]]; [left; exact B|right; split; [exact B|lia]].
Qed.
(** A new variable, and what was there before it. *)
Lemma widened_new d v d' : widens delta_default d -> delta_insert_new NBoundVariable d = Ok (v, d') ->
  delta_concept d' v = Some own_variable /\
  (forall id cds, delta_concept d id = Some cds -> delta_concept d' id = Some cds) /\
  delta_concept d v = None /\ exists u, v = Uncommitted u.
Proof.
  intros W E. destruct (widened d W) as [A B]. destruct d as [o i]. cbn in E. apply obind_ok in E.
  destruct E as ([id o'] & E & [= <- <-]). unfold insert_new in E. apply obind_ok in E.
  destruct E as (o1 & E & [= <- <-]). unfold insert_delta in E. cbn [d_concept d_string d_num d_order] in E.
  unfold delta_concept in *. cbn [layers layers_concept overlay] in *.
  assert (Z : layers_concept i (Uncommitted (d_num o)) = None /\ aget cid_eqb (Uncommitted (d_num o)) (d_concept o) = None).
  { specialize (B (d_num o)). destruct (layers_concept i _), (aget cid_eqb _ _); destruct B as [B|[_ B]]; try discriminate; try lia; auto. }
  destruct Z as [Z1 Z2]. rewrite Z2 in E. injection E as <-. cbn [d_concept].
  split; [rewrite Z1, (aget_aset cid_eqb cid_eqb_spec); destruct (cid_eqb_spec (Uncommitted (d_num o)) (Uncommitted (d_num o))); [reflexivity|congruence]|].
  split; [|split; [rewrite Z1, Z2; reflexivity|eauto]].
  intros id cds H. rewrite (aget_aset cid_eqb cid_eqb_spec).
  destruct (cid_eqb_spec id (Uncommitted (d_num o))) as [->|Ne]; [rewrite Z1, Z2 in H; discriminate|exact H].
Qed.

Section Reading.
  Variables (cfg : config) (snap : snapshot).
  Hypothesis F : fair cfg.
  Section Delta.
    Variable d : delta.
    Hypothesis W : widens delta_default d.
    Lemma wide_read n : read_concept cfg snap d (Committed n) = read_concept cfg snap delta_default (Committed n).
    Proof. unfold read_concept, maybe_read_concept. rewrite (proj1 (widened d W)). reflexivity. Qed.
    Lemma wide_back n m : read_concept cfg snap d (Committed n) = Ok m ->
      exists c, lookup snap n = Some c /\ m = mixed_of_committed c.
    Proof. rewrite wide_read. apply read_back. Qed.
    Lemma wide_other u m : read_concept cfg snap d (Uncommitted u) = Ok m -> m = MUnc (make_bound_variable (Uncommitted u)).
    Proof.
      unfold read_concept, maybe_read_concept. destruct (proj2 (widened d W) u) as [-> | [-> _]]; cbn; [discriminate|].
      unfold dassert. rewrite andb_false_r || idtac. destruct (dbg cfg); cbn; intros [= <-]; reflexivity.
    Qed.
    Lemma wide_type id t : concrete_concept_type cfg snap d id = Ok (Some t) -> exists n, id = Committed n /\ built_in snap n t.
    Proof.
      unfold concrete_concept_type, omap. intros E. apply obind_ok in E. destruct E as (m & R & [= E]).
      destruct id as [n|u].
      - exists n. split; [reflexivity|]. apply wide_back in R. destruct R as (c & L & ->). exists c. split; [exact L|].
        cbn in E. unfold get_concrete in E. destruct (c_spec c); congruence.
      - apply wide_other in R. subst m. discriminate.
    Qed.
    Lemma wide_maybe_type id t : maybe_concrete_concept_type cfg snap d id = Ok t -> t = None.
    Proof.
      unfold maybe_concrete_concept_type, maybe_read_concept. intros E. apply obind_ok in E. destruct E as (m & E & [= <-]).
      destruct id as [n|u].
      - rewrite (proj1 (widened d W)) in E. injection E as <-. reflexivity.
      - destruct (proj2 (widened d W) u) as [H|[H _]]; rewrite H in E.
        + injection E as <-. reflexivity.
        + cbn in E. unfold dassert in E. destruct (dbg cfg); cbn in E; injection E as <-; reflexivity.
    Qed.
    Lemma wide_scan cc l : forall acc r, concrete_scan cfg snap d cc acc l = Ok r -> r = acc.
    Proof.
      induction l as [|[id cds] l IH]; intros acc r E; cbn [concrete_scan] in E; [congruence|].
      apply obind_ok in E. destruct E as (t & T & E). apply wide_maybe_type in T. subst t. cbn in E. apply IH, E.
    Qed.
    Lemma wide_concrete_id cc v : concrete_concept_id cfg snap d cc = Ok v -> concrete_concept_id cfg snap delta_default cc = Ok v.
    Proof.
      rewrite (concrete_id_plain cfg snap cc F). unfold concrete_concept_id. intros E. apply obind_ok in E.
      destruct E as (r & E & [= <-]). apply wide_scan in E. subst r. reflexivity.
    Qed.
    Lemma wide_normal_form fuel : forall n v, get_normal_form cfg snap d fuel (Committed n) = Ok v ->
      get_normal_form cfg snap delta_default fuel (Committed n) = Ok v /\ (forall k, v = Some k -> exists j, k = Committed j).
    Proof.
      induction fuel as [|fuel IH]; intros n v E; [discriminate|]. cbn [get_normal_form] in *. rewrite wide_read in E.
      apply obind_ok in E. destruct E as (m & R & E). rewrite R. cbn [obind]. apply read_back in R.
      destruct R as (c & L & ->). cbn [m_reduction mixed_of_committed] in *.
      destruct (get_reduction c) as [k|]; cbn [option_map] in *; [|injection E as <-; split; [reflexivity|discriminate]].
      apply obind_ok in E. destruct E as (r & E & [= <-]). apply IH in E. destruct E as [E Q]. rewrite E. cbn [obind].
      split; [reflexivity|]. intros j [= <-]. destruct r as [r|]; [apply (Q r eq_refl)|eauto].
    Qed.
    Lemma wide_label fuel : forall n v, get_label cfg snap d fuel (Committed n) = Ok v ->
      get_label cfg snap delta_default fuel (Committed n) = Ok v.
    Proof.
      induction fuel as [|fuel IH]; intros n v E; [discriminate|]. cbn [get_label] in *.
      unfold get_concept_of_label in *. apply obind_ok in E. destruct E as (l & E1 & E).
      apply obind_ok in E1. destruct E1 as (lab & CI & E1). pose proof (wide_concrete_id _ _ CI) as CI'. rewrite CI'. cbn [obind].
      assert (LabC : forall k, lab = Some k -> exists j, k = Committed j).
      { rewrite (concrete_id_plain cfg snap _ F) in CI'. injection CI' as <-. intros k.
        destruct (bimap_by_right _ _); [|discriminate]. intros [= <-]. eauto. }
      rewrite !wide_read in *.
      assert (X : forall m, read_concept cfg snap delta_default (Committed n) = Ok m ->
        match m_reduction m with None => Ok None | Some r => get_label cfg snap d fuel r end = Ok v ->
        match m_reduction m with None => Ok None | Some r => get_label cfg snap delta_default fuel r end = Ok v).
      { intros m R. apply read_back in R. destruct R as (c & L & ->). cbn [m_reduction mixed_of_committed].
        destruct (get_reduction c) as [k|]; cbn [option_map]; [apply IH|auto]. }
      destruct lab as [k|].
      - apply obind_ok in E1. destruct E1 as (m & R & [= <-]). rewrite R in *. cbn [obind] in *.
        destruct (LabC k eq_refl) as [j ->]. destruct (m_find_as_hand m (Committed j) HRight) as [p|] eqn:H.
        + apply read_back in R. destruct R as (c & L & ->). cbn [m_find_as_hand mixed_of_committed ch_left ch_right aget] in H.
          destruct (find_as_hand Nat.eqb c j HRight) as [q|]; [|discriminate].
          injection H as <-. apply obind_ok in E. destruct E as (r & E & E'). apply wide_normal_form in E. destruct E as [E Q].
          rewrite E. cbn [obind]. destruct r as [r|]; [|exact E']. destruct (Q r eq_refl) as [i ->]. rewrite wide_read in E'. exact E'.
        + apply X; [reflexivity|exact E].
      - injection E1 as <-. cbn [obind]. apply obind_ok in E. destruct E as (m & R & E). rewrite R. cbn [obind].
        apply X; [exact R|exact E].
    Qed.
  End Delta.

  (** The converse of [label_goes_by]. *)
  Hypothesis LC : compositions_are_listed snap.
  Hypothesis LR : listed_compositions_are_real snap.
  Hypothesis UL : forall a b, built_in snap a CLabel -> built_in snap b CLabel -> a = b.
  Variable lab : nat.
  Hypothesis CI : concrete_concept_id cfg snap delta_default CLabel = Ok (Some (Committed lab)).
  Hypothesis BL : built_in snap lab CLabel.
  Lemma normal_form_reduces fuel : forall n k, get_normal_form cfg snap delta_default fuel (Committed n) = Ok (Some k) ->
    exists j, k = Committed j /\ clos_trans nat (reduces snap) n j.
  Proof.
    induction fuel as [|fuel IH]; intros n k E; [discriminate|]. cbn [get_normal_form] in E.
    apply obind_ok in E. destruct E as (m & R & E). apply read_back in R. destruct R as (c & L & ->).
    cbn [m_reduction mixed_of_committed] in E. unfold get_reduction in E.
    destruct (c_spec c) as [|comp [q|]|] eqn:S; cbn [option_map] in E; try discriminate.
    assert (Re : reduces snap n q) by (exists c, comp; auto).
    apply obind_ok in E. destruct E as (r & E & [= <-]). destruct r as [r|].
    - apply IH in E. destruct E as (j & -> & T). exists j. split; [reflexivity|]. eapply t_trans; [apply t_step, Re|exact T].
    - exists q. split; [reflexivity|]. apply t_step, Re.
  Qed.
  Lemma label_names fuel : forall n w, get_label cfg snap delta_default fuel (Committed n) = Ok (Some w) -> goes_by snap n w.
  Proof.
    induction fuel as [|fuel IH]; intros n w E; [discriminate|]. cbn [get_label] in E.
    unfold get_concept_of_label in E. rewrite CI in E. cbn [obind] in E. apply obind_ok in E. destruct E as (l & E1 & E).
    apply obind_ok in E1. destruct E1 as (m & R & [= <-]). rewrite R in E. cbn [obind] in E. apply read_back in R.
    destruct R as (c & L & ->). cbn [m_find_as_hand mixed_of_committed ch_right aget] in E. unfold find_as_hand, hand_of in E.
    destruct (aget Nat.eqb lab (righthand_of c)) as [k|] eqn:A; cbn [option_map] in E.
    - apply obind_ok in E. destruct E as (p & E & E'). destruct p as [p|]; [|discriminate].
      apply normal_form_reduces in E. destruct E as (j & -> & T). unfold omap in E'. apply obind_ok in E'.
      destruct E' as (m & R & [= S]). apply read_back in R. destruct R as (c' & L' & ->). cbn in S. unfold get_string in S.
      apply GoesByLabel. exists lab, k, j. split; [exact BL|]. split.
      { apply LR. right. exists c. auto. }
      split; [exact T|]. exists c'. split; [exact L'|]. destruct (c_spec c'); congruence.
    - cbn [m_reduction mixed_of_committed] in E. unfold get_reduction in E.
      destruct (c_spec c) as [|comp [q|]|] eqn:S; cbn [option_map] in E; try discriminate.
      eapply GoesByReduction; [| |apply IH, E].
      + intros lab' k B C. rewrite (UL _ _ B BL) in C. apply LC in C. destruct C as [_ (c' & L' & H)].
        rewrite L in L'. injection L' as <-. congruence.
      + exists c, comp. auto.
  Qed.
End Reading.
