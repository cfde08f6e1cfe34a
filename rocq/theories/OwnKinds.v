(** The trees that are remembered for named concepts without parts are no variables unless they
    are named so. *)
From Verif Require Import Snapshot Search Context StoreSpec NameSpec MapFacts AstSpec AstFacts StoreFacts StoreInv RangeFacts
  History Sim SimRead Steps Keep Links Meaning Names Frames StoreLaws OneName Questions SearchKeeps SearchCaches Existence Wide Earned
  CacheRun Naming OwnTrees Follow WideNames Sample.
From Coq Require Import List String Relations Permutation PeanoNat Lia.
Import ListNotations.
Local Open Scope zia_scope.

(** [n] has no parts and a name that is not written like a variable. *)
Definition said_plainly (s : snapshot) (n : nat) : Prop :=
  elementary s n /\ exists w, carries_label s n w /\ is_variable_text w = false.
Lemma said_same s s' n : concepts s' = concepts s -> said_plainly s n -> said_plainly s' n.
Proof.
  intros E. assert (L : forall i, lookup s' i = lookup s i) by (intros i; unfold lookup; rewrite E; reflexivity).
  intros [[A B] (w & (l & k & v & H1 & H2 & H3 & H4) & V)]. split.
  - unfold elementary, comp_at, char_at in *. rewrite L. auto.
  - exists w. split; [|exact V]. exists l, k, v. unfold built_in, composed, has_text in *. rewrite !L. split; [exact H1|].
    split; [exact H2|]. split; [|exact H4]. clear - H3 L. induction H3 as [x y H|x y z _ IH1 _ IH2].
    + apply t_step. unfold reduces in *. rewrite L. exact H.
    + eapply t_trans; eassumption.
Qed.

Section OwnKinds.
  Variables (cfg : config) (snap : snapshot) (fuel : nat).
  Hypothesis F : fair cfg.
  Hypothesis S : sane snap.
  Hypothesis P : prev_unc snap = [].
  Hypothesis CI : forall l, built_in snap l CLabel -> bimap_by_right CLabel (concrete_concepts snap) = Some l.
  Local Notation rho := (rho snap).
  Local Notation amounts_to := (amounts_to cfg snap fuel).
  Notation ops n := (search cfg snap fuel n).
  Section Delta.
    Variable d : delta.
    Definition plainly (x : cid) : Prop := within d x /\ exists s, amounts_to d s /\ links_agree s /\ said_plainly s (rho x).
    Definition kind_entry (x : cid) (t : tree) : Prop := plainly x -> is_leaf_variable t = false.
    Definition kind_trees (s : sstate) : Prop := forall h x t, In (x, t) (nth h (s_syn s) []) -> kind_entry x t.
    Lemma plainly_plain x m : plainly x -> read_concept cfg snap d x = Ok m -> plain cfg snap d x.
    Proof.
      intros (Wx & s & A & _ & E & _) R. exact (plain_there cfg snap d s x m (proj1 (amounts_linked cfg snap fuel S P d s A)) R E).
    Qed.
    Lemma quoted_constant w : is_variable_text (format_string w) = false.
    Proof. reflexivity. Qed.
    Lemma kind_tree n e x s t s' : own cfg snap d e -> kind_trees s -> plainly x ->
      o_to_ast (ops n) e x s = Ok (t, s') -> (exists m, read_concept cfg snap d x = Ok m) -> is_leaf_variable t = false.
    Proof.
      intros [W M] H Px E (m0 & R0). destruct n as [|n]; [discriminate|]. cbn [search step o_to_ast] in E. unfold to_ast in E.
      pose proof (plainly_plain x m0 Px R0) as Pl.
      destruct (ml_get (e_mask e) x) as [u|] eqn:G; [destruct (M _ _ G Pl)|].
      apply sb in E. destruct E as (cached & s1 & C & E). injection C as C <-. destruct cached as [u|].
      { injection E as -> _. apply (aget_in _ cid_eqb_spec) in C. exact (H _ _ _ C Px). }
      apply sb in E. destruct E as (m & s1 & R & E). apply read_ok in R. destruct R as [R ->]. unfold known in R.
      pose proof Px as (Wx & s0 & A & LA & _ & w & CL & V).
      apply sb in E. destruct E as (lab & s1 & El & E). apply sb in E. destruct E as (u & s2 & Eu & E).
      apply sb in E. destruct E as (y & s3 & _ & E). injection E as -> _.
      assert (X : exists v, lab = Some v /\ is_variable_text v = false).
      { destruct (m_string m) as [q|]; [injection El as <- _; eexists; split; [reflexivity|apply quoted_constant]|].
        unfold slift in El. apply obind_ok in El. destruct El as (v & El & [= <- _]).
        rewrite (wide_name cfg snap fuel F S P d (e_delta e) s0 W A fuel x v w LA CI Wx El CL). eauto. }
      destruct X as (v & -> & Vv). unfold slift in Eu. apply obind_ok in Eu. destruct Eu as (z & Eu & [= -> _]).
      unfold bind_concept_to_syntax in Eu. apply obind_ok in Eu. destruct Eu as (ty & _ & Eu). unfold from_text in Eu. rewrite Vv in Eu.
      destruct (opt_cct_eqb ty _).
      - unfold bind_quantifier in Eu. apply obind_ok in Eu. destruct Eu as (q & _ & [= <-]). reflexivity.
      - injection Eu as <-. reflexivity.
    Qed.
    Let N := sane_numbers _ S.
    Lemma kind_laws : cache_laws cfg snap fuel (fun s => own_trees cfg snap d s /\ kind_trees s) (fun _ _ => True)
      (own cfg snap d) (own cfg snap d) (fun _ => True).
    Proof.
      pose proof (own_laws cfg snap fuel N d) as L. constructor; try (intros; exact I); try (intros; assumption).
      - intros s n H. split; [exact H|exact I].
      - intros s h s' H [= <- <-]. split; [exact I|]. split; [exact H|exact I].
      - intros e h d' s e' s' Se Hh Wd [H K] E. destruct (l_spawn _ _ _ _ _ _ _ _ L e h d' s e' s' Se Hh Wd H E) as (A & B & _).
        split; [exact A|]. split; [|exact I]. split; [exact B|].
        unfold spawn in E. apply sb in E. destruct E as (sy & s1 & [= <- <-] & [= <- <-]).
        intros h' x t J. cbn [s_syn] in J. apply in_more in J. exact (K _ _ _ J).
      - exact (l_mask _ _ _ _ _ _ _ _ L).
      - exact (l_infer _ _ _ _ _ _ _ _ L).
      - intros n e t s r s1 s2 _ _ _ [H1 K1] _ E _. split; [|exact I]. unfold insert_reduction in E. injection E as <-.
        match goal with |- context [if ?b then _ else _] => destruct b end; split; assumption.
      - intros n e c m t s s1 s2 Se [H K] G G2 R [H1 K1] _ E R' T. split; [|exact I]. split.
        + refine (proj1 (l_syn _ _ _ _ _ _ _ _ L n e c m t s s1 s2 Se H G G2 R H1 I E _ T)).
          intros n' e' c' s3 t' s4 Ln Se' H3 E'.
          exact (proj1 (kp_to_ast _ _ _ _ (search_kp _ _ _ _ _ _ _ _ L n') e' c' Se' s3 t' s4 H3 E')).
        + unfold insert_syntax in E. injection E as <-. destruct (m_anonymous m); [exact K1|].
          pose proof (read_id _ _ _ _ _ N R) as Id. rewrite Id in *. intros h x u J. cbn [s_syn] in J. apply in_upd in J.
          destruct J as [J|[-> J]]; [exact (K1 _ _ _ J)|]. apply (in_aset _ cid_eqb_spec) in J.
          destruct J as [[-> ->]|J]; [|exact (K1 _ _ _ J)]. intros Px.
          refine (kind_tree _ e c s t _ Se K Px T _). exists m. rewrite <- (widens_read cfg snap d (e_delta e) c (proj1 Se) (proj1 Px)). exact R.
      - intros n e c t r s s1 s2 _ _ _ _ _ H _ _ _. split; [exact H|exact I].
    Qed.
  End Delta.

  (** ** Throughout a command *)
  Definition kind_cache (c : ctx) : Prop := forall x t, In (x, t) (k_syn (c_cache c)) -> kind_entry (c_delta c) x t.
  Definition kinds (c : ctx) : Prop := c_snap c = snap /\ own_cache cfg c /\ kind_cache c.
  Lemma kind_run_laws :
    run_laws cfg fuel kinds (fun _ _ => True)
      (fun c s => own_trees cfg snap (c_delta c) s /\ kind_trees (c_delta c) s) (fun _ _ _ => True)
      (fun c => own cfg snap (c_delta c)) (fun c => own cfg snap (c_delta c)) (fun _ _ => True).
  Proof.
    constructor; try (intros; exact I).
    - intros x c r c' [H _] E. unfold update in E. apply obind_ok in E. destruct E as ([id d'] & _ & [= <- <-]).
      split; [|exact I]. split; [exact H|]. split; intros y t [].
    - intros c [H _]. rewrite H. apply kind_laws.
    - intros c _. split; [constructor|]. intros x t G. discriminate G.
    - intros c (E & H & K). unfold own_cache in H. rewrite E in H. split; intros [|[|h]] x t X; cbn in X; try contradiction; [apply H, X|apply K, X].
    - intros c s (E & H & K) [H1 K1] _. split; [|exact I]. split; [exact E|]. split.
      + intros x t X. cbn [c_snap c_delta]. rewrite E. apply (H1 0). cbn [final_cache k_syn c_cache] in X. destruct (s_syn s); exact X.
      + intros x t X. apply (K1 0). cbn [final_cache k_syn c_cache] in X. destruct (s_syn s); exact X.
    - intros c v b p H. split; [exact H|exact I].
  Qed.
  (** Expanding what was read: named words stay words. *)
  Lemma expand_kinds : forall x w k n e s t s' d, own cfg snap d e -> e_delta e = d ->
    own_trees cfg snap d s /\ kind_trees d s -> plainly d x ->
    o_expand (ops n) e (TLeaf w (Some x) k) s = Ok (t, s') -> is_leaf_variable t = false.
  Proof.
    intros x w k n e s t s' d Se De [H K] Px E. destruct n as [|n]; [discriminate|]. cbn [search step o_expand] in E. unfold expand in E. cbn [t_concept] in E.
    apply sb in E. destruct E as (comp & s1 & Ec & E). unfold composition_of_concept in Ec. unfold smap in Ec.
    apply sb in Ec. destruct Ec as (m & s2 & Ec & Ec'). injection Ec' as <- <-. apply read_ok in Ec. destruct Ec as [R ->]. unfold known in R. rewrite De in R.
    pose proof (plainly_plain d x m Px R) as (_ & m' & R' & C & _). rewrite R in R'. injection R' as <-. rewrite C in E.
    refine (kind_tree d n e x s t s' Se K Px E _). eauto.
  Qed.
End OwnKinds.

(** ** Between commands *)
Definition kind_context (c : ctx) : Prop :=
  forall n t, In (Committed n, t) (k_syn (c_cache c)) -> said_plainly (c_snap c) n -> is_leaf_variable t = false.
Lemma label_index b c : reachable b c -> forall l, built_in (c_snap c) l CLabel -> bimap_by_right CLabel (concrete_concepts (c_snap c)) = Some l.
Proof.
  intros R l B. destruct (reachable_built_in b c R CLabel) as (lab & BL & _ & UL & _ & _ & CI).
  rewrite (UL l B). rewrite (concrete_id_plain cfg0 _ _ fair0) in CI. destruct (bimap_by_right _ _); [|discriminate]. injection CI as ->. reflexivity.
Qed.
Lemma kind_start cfg fuel c : c_delta c = delta_default -> kind_context c -> kind_cache cfg (c_snap c) fuel c.
Proof.
  intros D H x t J. unfold kind_entry. rewrite D. intros (W & s & [_ A] & _ & SP). cbn in A. injection A as <-.
  destruct x as [n|u]; [|cbn in W; lia]. exact (H _ _ J SP).
Qed.
Theorem reachable_kinds b c : reachable_with b (links_safe b) c -> kind_context c.
Proof.
  intros R. induction R as [|cfg fuel t c z c1 r c' F D R IH E1 OK E]; [intros n t []|].
  pose proof (reachable_without _ _ _ R) as R0. pose proof (reachable_ready _ _ R0) as RD.
  pose proof (reachable_links b c' (reach_with_execute b (links_safe b) cfg fuel t c z c1 r c' F D R E1 OK E)) as LA.
  destruct (execute_run cfg fuel t c r c' F RD E) as (z' & c1' & E1' & Es & _ & ST & _ & _ & _ & _ & K).
  rewrite E1 in E1'. injection E1' as <- <-.
  destruct (execute_frame cfg fuel t c r c' F RD E) as (z' & c1' & E1' & _ & _ & s1 & LK & A1 & CC & _).
  rewrite E1 in E1'. injection E1' as <- <-.
  destruct (ck_run _ _ _ _ _ _ _ _ _
    (kind_run_laws cfg (c_snap c) fuel F (ready_sane c RD) (ready_prev c RD) (label_index b c R0)) t c z c1
    (conj eq_refl (conj (own_start cfg c (ready_delta c RD) (reachable_own _ _ R0)) (kind_start cfg fuel c (ready_delta c RD) IH))) E1)
    as [(_ & _ & H) _].
  intros n u J SP. rewrite K in J. apply (H _ _ J). split; [exact I|]. exists s1. split; [split; assumption|].
  split; [apply (links_same (c_snap c')); [symmetry; exact CC|exact LA]|].
  apply (said_same (c_snap c')); [symmetry; exact CC|exact SP].
Qed.
