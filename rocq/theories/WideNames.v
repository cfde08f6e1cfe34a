(** The name of a concept, read through the layers of a search that starts with pending changes. *)
From Verif Require Import Snapshot Search Context StoreSpec NameSpec MapFacts AstFacts StoreFacts StoreInv RangeFacts
  History Sim SimRead Steps Keep Links Meaning Names Frames StoreLaws Pending Quiet OneName Questions SearchCaches Wide Naming OwnTrees.
From Coq Require Import List String Relations Permutation PeanoNat Lia.
Import ListNotations.
Local Open Scope zia_scope.

(** ** The layers of a search *)
Definition hollow (o : option (list cdelta)) : Prop := o = None \/ o = Some [].
Lemma widened_from d D : widens d D ->
  (forall u, le (d_num (overlay d)) u -> hollow (delta_concept d (Uncommitted u))) ->
  forall u, le (d_num (overlay d)) u -> hollow (delta_concept D (Uncommitted u)) \/
    (delta_concept D (Uncommitted u) = Some own_variable /\ lt u (d_num (overlay D))).
Proof.
  induction 1 as [d|d d1 W IH|d d1 v d2 W IH E]; intros H u Lu.
  - left. apply H, Lu.
  - assert (X : forall id, layers_concept (layers (delta_spawn d1)) id = layers_concept (layers d1) id).
    { intros id. cbn [delta_spawn layers layers_concept]. cbn [new_layer d_concept aget].
      destruct (layers_concept (layers d1) id); reflexivity. }
    unfold delta_concept in *. rewrite X. apply (IH H u Lu).
  - specialize (IH H). pose proof (proj1 (widens_same _ _ W)) as Ln. clear W. destruct d1 as [o i]. cbn in E. apply obind_ok in E.
    destruct E as ([id o'] & E & [= <- <-]). unfold insert_new in E. apply obind_ok in E.
    destruct E as (o1 & E & [= <- <-]). unfold insert_delta in E. cbn [d_concept d_string d_num d_order] in E.
    unfold delta_concept in *. cbn [layers layers_concept overlay] in *.
    destruct (aget cid_eqb (Uncommitted (d_num o)) (d_concept o)) as [cds|] eqn:G.
    { exfalso. specialize (IH (d_num o) Ln). rewrite G in IH. assert (cds = []) as ->; [|discriminate E].
      destruct (layers_concept i (Uncommitted (d_num o))) as [q|]; destruct IH as [[B|B]|[_ B]]; try discriminate; try lia.
      - injection B as B. apply app_eq_nil in B. apply B.
      - congruence. }
    injection E as <-. cbn [d_concept d_num]. rewrite (aget_aset cid_eqb cid_eqb_spec). specialize (IH u Lu).
    destruct (cid_eqb_spec (Uncommitted u) (Uncommitted (d_num o))) as [[= ->]|Ne].
    + right. rewrite G in IH. destruct (layers_concept i _) as [q|].
      * destruct IH as [[B|[= ->]]|[_ B]]; [discriminate| |lia]. split; [reflexivity|lia].
      * split; [reflexivity|lia].
    + destruct IH as [B|[B Lt]]; [left; exact B|right; split; [exact B|lia]].
Qed.
Definition keys_once (d : delta) : Prop := Forall (fun l => NoDup (map fst (d_concept l))) (layers d).
Lemma widens_once d D : widens d D -> keys_once d -> keys_once D.
Proof.
  induction 1 as [d|d d1 W IH|d d1 v d2 W IH E]; intros H; [exact H| |].
  - constructor; [constructor|]. exact (IH H).
  - specialize (IH H). clear W. destruct d1 as [o i]. cbn in E. apply obind_ok in E.
    destruct E as ([id o'] & E & [= <- <-]). unfold insert_new in E. apply obind_ok in E.
    destruct E as (o1 & E & [= <- <-]). inversion IH as [|? ? N1 N2]. subst. constructor; [|exact N2].
    apply (insert_delta_nodup _ _ _ _ _ _ E). exact N1.
Qed.
Lemma iter_layers cfg : fair cfg -> forall ls, Forall (fun l => NoDup (map fst (d_concept l))) ls ->
  forall k cds, In (k, cds) (layers_iter_concepts cfg ls) <-> layers_concept ls k = Some cds.
Proof.
  intros F. induction ls as [|l inner IH]; intros H k cds; [cbn; split; [intros []|discriminate]|].
  inversion H as [|? ? N1 N2]. subst. cbn [layers_iter_concepts layers_concept]. rewrite in_app_iff, filter_In, in_map_iff, (IH N2). split.
  - intros [[J K]|([k' o] & [= -> <-] & J)].
    + rewrite J. destruct (aget cid_eqb k (d_concept l)); [discriminate|reflexivity].
    + apply (Permutation_in _ (F _ _ _)) in J. rewrite (In_aget _ cid_eqb_spec _ _ _ N1 J). destruct (layers_concept inner k); reflexivity.
  - destruct (aget cid_eqb k (d_concept l)) as [o|] eqn:A.
    + intros E. right. exists (k, o). split.
      * destruct (layers_concept inner k); congruence.
      * eapply Permutation_in; [symmetry; apply F|]. apply (aget_in _ cid_eqb_spec) in A. exact A.
    + intros E. left. split; [|reflexivity]. destruct (layers_concept inner k); congruence.
Qed.

Section WideNames.
  Variables (cfg : config) (snap : snapshot) (fuel : nat).
  Hypothesis F : fair cfg.
  Hypothesis S : sane snap.
  Hypothesis P : prev_unc snap = [].
  Local Notation rho := (rho snap).
  Local Notation amounts_to := (amounts_to cfg snap fuel).
  Section Delta.
    Variables (d D : delta) (s : snapshot).
    Hypothesis W : widens d D.
    Hypothesis A : amounts_to d s.
    Let LK := proj1 (amounts_linked cfg snap fuel S P d s A).
    Let TD := proj1 (proj2 (proj2 (proj2 (amounts_linked cfg snap fuel S P d s A)))).
    Let SB := proj2 (proj2 (proj2 (proj2 (amounts_linked cfg snap fuel S P d s A)))).
    Lemma single : delta_concept d = fun k => aget cid_eqb k (d_concept (overlay d)).
    Proof. unfold delta_concept. rewrite (lk_layers _ _ _ _ _ LK). reflexivity. Qed.
    Lemma nothing_new u : le (d_num (overlay d)) u -> hollow (delta_concept d (Uncommitted u)).
    Proof.
      intros Lu. rewrite single. destruct (aget cid_eqb (Uncommitted u) (d_concept (overlay d))) as [cds|] eqn:E; [|left; reflexivity].
      right. f_equal. destruct cds as [|x cds]; [reflexivity|]. exfalso.
      assert (X : entries (overlay d) (Uncommitted u) <> []) by (unfold entries; rewrite E; discriminate).
      apply (lk_entries _ _ _ _ _ LK) in X. cbn in X. lia.
    Qed.
    Lemma once : keys_once D.
    Proof.
      apply (widens_once d D W). unfold keys_once. rewrite (lk_layers _ _ _ _ _ LK). constructor; [apply TD|constructor].
    Qed.
    Lemma iter_wide k cds : In (k, cds) (delta_iter_concepts cfg D) <-> delta_concept D k = Some cds.
    Proof. apply (iter_layers cfg F _ once). Qed.
    Lemma within_or k : within d k \/ exists u, k = Uncommitted u /\ le (d_num (overlay d)) u.
    Proof. destruct k as [n|u]; [left; exact I|]. destruct (Nat.lt_ge_cases u (d_num (overlay d))) as [L|L]; [left; exact L|right; eauto]. Qed.

    (** Looking for a built-in concept. *)
    Lemma wide_concrete cc v : concrete_concept_id cfg snap D cc = Ok v ->
      v = option_map Committed (bimap_by_right cc (concrete_concepts snap)).
    Proof.
      intros E. unfold concrete_concept_id in E. apply obind_ok in E. destruct E as (r & E1 & E2).
      assert (X : r = None); [|rewrite X in E2; congruence].
      assert (IN : forall k cds, In (k, cds) (delta_iter_concepts cfg D) -> delta_concept D k = Some cds) by (intros k cds; apply iter_wide).
      revert IN E1. generalize (delta_iter_concepts cfg D).
      assert (SC : forall n cds, (forall nd, ~ In (Direct (DNew nd)) cds) -> (forall i, ~ In (Direct (DRemove i)) cds) ->
         forall acc, concrete_scan_deltas cfg (Committed n) acc cds = Ok acc).
      { intros n. induction cds as [|cd cds IH]; intros H1 H2 acc; [reflexivity|].
        assert (K : concrete_scan_deltas cfg (Committed n) acc cds = Ok acc).
        { apply IH; intros y J; [apply (H1 y)|apply (H2 y)]; right; exact J. }
        destruct cd as [[nd| | |i]|]; cbn; try exact K.
        - destruct (H1 nd). left. reflexivity.
        - destruct (H2 i). left. reflexivity. }
      induction l as [|[k cds] l IH]; intros IN E1; [cbn in E1; congruence|].
      cbn in E1. apply obind_ok in E1. destruct E1 as (ty & E1 & E3). apply obind_ok in E3. destruct E3 as (acc & E3 & E4).
      assert (acc = None) as ->.
      { unfold maybe_concrete_concept_type in E1. apply obind_ok in E1. destruct E1 as (m & E1 & E5).
        injection E5 as <-. destruct (opt_cct_eqb _ _) eqn:Q in E3; [|congruence]. destruct m as [m|]; [|discriminate Q].
        pose proof (IN _ _ (or_introl eq_refl)) as DK.
        destruct (within_or k) as [Wk|(u & -> & Lu)].
        - unfold maybe_read_concept in E1. rewrite (proj2 (widens_same _ _ W) k Wk) in E1, DK.
          assert (R : read_concept cfg snap d k = Ok m) by (unfold read_concept, maybe_read_concept; rewrite E1; reflexivity).
          rewrite single in DK. destruct k as [n|u].
          + rewrite SC in E3; [congruence| |].
            * intros nd J. apply (proj2 TD n nd). unfold entries. rewrite DK. exact J.
            * intros i J. apply (lk_noremove _ _ _ _ _ LK (Committed n) i). unfold entries. rewrite DK. exact J.
          + exfalso. destruct (linked_same _ _ _ _ _ s _ _ LK eq_refl R) as (m' & R' & SR & _).
            destruct (linked_read _ _ _ _ _ _ _ LK R) as (_ & c & L & _).
            unfold renamed in R'. rewrite (read_committed _ _ _ _ L) in R'. injection R' as <-.
            pose proof (sr_concrete _ _ _ SR) as C. cbn in C. destruct (m_concrete m) as [cc'|]; [|discriminate Q].
            assert (B : built_in s (rho (Uncommitted u)) cc').
            { apply built_in_at. unfold concrete_at. rewrite L. exact C. }
            apply (proj2 SB), built_in_lt in B. cbn in B. lia.
        - exfalso. unfold maybe_read_concept in E1.
          destruct (widened_from d D W nothing_new u Lu) as [[H|H]|[H _]]; rewrite H in E1.
          + discriminate E1.
          + discriminate E1.
          + cbn in E1. unfold dassert in E1. destruct (dbg cfg); cbn in E1; injection E1 as <-; discriminate Q. }
      apply IH; [|exact E4]. intros k' cds' J. apply IN. right. exact J.
    Qed.
    Lemma wide_hands cc v : concrete_concept_id cfg snap D cc = Ok v ->
      forall j x, In (j, x) (d_order (overlay d)) -> keeps_hands x.
    Proof.
      intros E j x J. destruct x as [|k ch| |]; try exact Logic.I. exfalso.
      assert (LI : listed d).
      { destruct A as [ST A0]. destruct (steps_keep cfg snap fuel false (fun d _ => listed d) d s S P ST A0 ltac:(discriminate)
          (step_listed cfg snap fuel false)) as (_ & H); [intros ? ? ? []|exact H]. }
      apply LI in J. unfold concrete_concept_id in E. apply obind_ok in E. destruct E as (w & E & _).
      assert (Dk : within d k).
      { assert (X : entries (overlay d) k <> []) by (intros X; rewrite X in J; destruct J).
        apply (lk_entries _ _ _ _ _ LK) in X. destruct k; [exact I|exact X]. }
      unfold entries in J. destruct (aget cid_eqb k (d_concept (overlay d))) as [cds|] eqn:G; [|destruct J].
      assert (DC : delta_concept D k = Some cds) by (rewrite (proj2 (widens_same _ _ W) k Dk), single; exact G).
      destruct (scan_reads _ _ _ _ _ _ _ E _ _ (proj2 (iter_wide k cds) DC)) as (m & R).
      unfold maybe_read_concept in R. rewrite DC in R. exact (composing_unread _ _ _ _ _ R _ _ J).
    Qed.
    Lemma hands_linked : (forall j x, In (j, x) (d_order (overlay d)) -> keeps_hands x) -> linked cfg snap true d s.
    Proof.
      intros H. destruct A as [ST A0].
      destruct (steps_keep cfg snap fuel true (fun _ _ => True) d s S P ST A0 (fun _ => H)) as [H1 _]; [|exact I|exact H1].
      intros d1 s1 x id d2 s2 K1 K2 K3 K4 K5 K6 K7 K8 K9 K10. exact I.
    Qed.
    Lemma dom_within k : dom snap (d_num (overlay d)) k -> within d k.
    Proof. destruct k; [intros _; exact I|auto]. Qed.
    Lemma wide_reads k m : within d k -> read_concept cfg snap D k = Ok m -> read_concept cfg snap d k = Ok m.
    Proof. intros Wk R. rewrite <- (widens_read cfg snap d D k W Wk). exact R. Qed.

    Lemma sim_reduces h k m c : lookup s (rho k) = Some c -> sim snap h (d_num (overlay d)) m (stripc h c) ->
      red_at s (rho k) = option_map rho (m_reduction m).
    Proof.
      intros L SM. unfold red_at. rewrite L. pose proof (sim_spec _ _ _ _ _ SM) as SP. rewrite (sim_red _ _ _ _ _ SM).
      cbn in SP. unfold get_reduction.
      destruct (c_spec c) as [|[] r0|]; cbn in SP; destruct (m_spec m) as [|[] r1|]; try discriminate SP; try reflexivity;
        cbn in SP; injection SP; intros; subst; destruct r1; reflexivity.
    Qed.
    (** The end of the chain of reductions. *)
    Lemma wide_normal n : forall k v, within d k -> get_normal_form cfg snap D n k = Ok v ->
      forall b, clos_trans nat (reduces s) (rho k) b -> (forall m, ~ reduces s b m) -> exists j, v = Some j /\ rho j = b /\ within d j.
    Proof.
      induction n as [|n IH]; intros k v Wk E b C N; [discriminate|]. cbn [get_normal_form] in E.
      apply obind_ok in E. destruct E as (m & R & E). apply (wide_reads k m Wk) in R.
      destruct (linked_read _ _ _ _ _ _ _ LK R) as (_ & c & L & SM). pose proof (sim_reduces _ k m c L SM) as RD.
      apply clos_trans_t1n in C.
      assert (X : exists y, reduces s (rho k) y /\ (y = b \/ clos_trans nat (reduces s) y b)).
      { destruct C as [b C|y b C K]; [exists b; auto|]. exists y. split; [exact C|right; apply clos_t1n_trans, K]. }
      destruct X as (y & C1 & C2). apply reduces_at in C1. rewrite C1 in RD.
      destruct (m_reduction m) as [r|] eqn:MR; [|discriminate RD]. injection RD as ->.
      pose proof (dom_within _ (sim_red_dom _ _ _ _ _ SM r MR)) as Wr.
      apply obind_ok in E. destruct E as (w & E & [= <-]). destruct C2 as [C2|C2]; [subst b|].
      - exists r. split; [|auto]. f_equal. destruct n as [|n]; [discriminate E|]. cbn [get_normal_form] in E.
        apply obind_ok in E. destruct E as (m' & R' & E). apply (wide_reads r m' Wr) in R'.
        destruct (linked_read _ _ _ _ _ _ _ LK R') as (_ & c' & L' & SM'). pose proof (sim_reduces _ r m' c' L' SM') as RD'.
        destruct (m_reduction m') as [q|].
        + exfalso. apply (N (rho q)), reduces_at. exact RD'.
        + injection E as <-. reflexivity.
      - destruct (IH r w Wr E b C2 N) as (j & -> & H). exists j. auto.
    Qed.
    (** The name. *)
    Lemma wide_name n k v w : links_agree s ->
      (forall l, built_in snap l CLabel -> bimap_by_right CLabel (concrete_concepts snap) = Some l) ->
      within d k -> get_label cfg snap D n k = Ok v -> carries_label s (rho k) w -> v = Some w.
    Proof.
      intros LA CI Wk E (l & p & x & B & C & R & T). destruct n as [|n]; [discriminate|]. cbn [get_label] in E.
      apply obind_ok in E. destruct E as (q & E1 & E). unfold get_concept_of_label in E1. apply obind_ok in E1.
      destruct E1 as (lab & E1 & E2). pose proof (hands_linked (wide_hands _ _ E1)) as LT. pose proof (wide_concrete _ _ E1) as ->.
      apply (proj2 SB) in B. rewrite (CI l B) in E2. cbn [option_map] in E2. apply obind_ok in E2. destruct E2 as (m & Rm & [= <-]).
      apply (wide_reads k m Wk) in Rm. destruct (linked_read _ _ _ _ _ _ _ LT Rm) as (_ & c & L & SM).
      assert (Dl : dom snap (d_num (overlay d)) (Committed l)) by (cbn; exact (built_in_lt _ _ _ B)).
      pose proof (sim_hand _ _ _ _ _ SM eq_refl (Committed l) HRight Dl) as H.
      apply composed_at in C. apply (proj1 LA) in C. destruct C as [_ C]. unfold hand_at in C. rewrite L in C. cbn [stripc] in H.
      cbn [hand_of] in C, H. cbn [righthand_of lefthand_of stripc hand_of] in H. assert (H0 : option_map rho (m_find_as_hand m (Committed l) HRight) = aget Nat.eqb l (righthand_of c)) by exact H. clear H. rename H0 into H. rewrite C in H.
      destruct (m_find_as_hand m (Committed l) HRight) as [i|] eqn:MH; [|discriminate H]. injection H as H.
      pose proof (dom_within _ (proj2 (sim_hand_dom _ _ _ _ _ SM eq_refl _ _ _ MH))) as Wi.
      apply obind_ok in E. destruct E as (y & E3 & E). rewrite <- H in R.
      assert (NR : forall z, ~ reduces s x z) by exact (text_ends s x w T).
      destruct (wide_normal n i y Wi E3 x R NR) as (j & -> & Hj & Wj). unfold omap in E. apply obind_ok in E.
      destruct E as (mj & Rj & [= <-]). apply (wide_reads j mj Wj) in Rj.
      destruct (linked_same _ _ _ _ _ s _ _ LK eq_refl Rj) as (m' & R' & SR & _). unfold renamed in R'. rewrite Hj in R'.
      destruct T as (cw & Lw & Sw). rewrite (read_committed _ _ _ _ Lw) in R'. injection R' as <-.
      rewrite <- (sr_string _ _ _ SR). cbn. unfold get_string. rewrite Sw. reflexivity.
    Qed.
  End Delta.
End WideNames.
