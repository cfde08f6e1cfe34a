(** Concepts that imply one another: evaluating one of them is never finished (zia/src/context_search.rs:101-197:
    `reduce` asks `infer_reduction`, which reduces each condition in the same environment). *)
From Verif Require Import Start Snapshot Search Context LexerSpec StoreSpec StoreInv NameSpec Names StoreFacts
  MapFacts AstSpec AstFacts RangeFacts History Steps SearchKeeps SearchCaches Questions Existence Wide Earned Repeat CacheLife
  Quiet Displays Matches Implications Asking Shapes Unruled Answers Clean Replies Keyed Flat.
From Coq Require Import List PeanoNat Bool.
Import ListNotations.
Local Open Scope zia_scope.

(** ** Specification *)
(** There is an implication from [x] to [k], that is, a concept made of [x] and `=> k`. *)
Definition implied_by (s : snapshot) (k x : nat) : Prop :=
  exists imp p q, built_in s imp CImplication /\ composed s p imp k /\ composed s q x p.
(** A set of symbols each of which is implied by one of them, and by nothing else. *)
Definition circle (s : snapshot) (S : nat -> Prop) : Prop := forall k, S k ->
  leaf_variable s k Constant /\ (exists x, implied_by s k x) /\ (forall x, implied_by s k x -> S x).

Section Store.
  Variables (cfg : config) (snap : snapshot) (fuel : nat).
  Hypothesis F : fair cfg.
  Hypothesis N : self_numbered snap.
  Hypothesis LC : compositions_are_listed snap.
  Hypothesis LR : listed_compositions_are_real snap.
  Hypothesis UC : compositions_are_unique snap.
  Hypothesis UL : forall a b, built_in snap a CLabel -> built_in snap b CLabel -> a = b.
  Variable lab : nat.
  Hypothesis CI : concrete_concept_id cfg snap delta_default CLabel = Ok (Some (Committed lab)).
  Hypothesis BL : built_in snap lab CLabel.
  Variable imp : nat.
  Hypothesis CM : concrete_concept_id cfg snap delta_default CImplication = Ok (Some (Committed imp)).
  Hypothesis UM : forall a, built_in snap a CImplication -> a = imp.
  Hypothesis BM : built_in snap imp CImplication.
  Hypothesis HK : hands_keyed snap.
  Variable S : nat -> Prop.
  Hypothesis SC : circle snap S.
  Notation ops n := (search cfg snap fuel n).
  Notation leaf_of := (leaf_of cfg snap fuel).
  Notation own := (new_env delta_default []).
  Notation quiet := (quiet cfg snap fuel).

  Definition unheard (s : sstate) : Prop := quiet s /\ forall k x r, S k -> ~ In ((x, Some (Committed k)), r) (nth 0 (s_red s) []).
  Lemma circle_elementary k : S k -> elementary snap k.
  Proof. intros H. right. exact (proj1 (SC _ H)). Qed.
  Lemma unheard_tree n k s t s' : S k -> unheard s -> o_to_ast (ops n) own (Committed k) s = Ok (t, s') -> leaf_of k t /\ unheard s'.
  Proof.
    intros H (Q & U) E. destruct (own_tree cfg snap fuel F N LR n k s t s' (circle_elementary _ H) Q E) as (Lf & Q' & V).
    split; [exact Lf|]. split; [exact Q'|]. unfold untouched in V. rewrite V. exact U.
  Qed.
  Lemma circle_reduce n : forall k t s r s', S k -> leaf_of k t -> unheard s -> o_reduce (ops n) own t s = Ok (r, s') -> False.
  Proof.
    induction n as [|n IH]; intros k t s r s' H Lf U E; [discriminate|].
    destruct (leaf_is _ _ _ N _ _ Lf) as (x & kk & ->). cbn [search step o_reduce] in E. unfold reduce in E.
    apply sb in E. destruct E as (cached & s1 & C & E). injection C as C <-. destruct cached as [rr|].
    { cbn [new_env e_reds lookup_red] in C. destruct (aget _ _ _) as [y|] eqn:A; [|discriminate].
      apply (aget_in _ key_eqb_spec) in A. exact (proj2 U _ _ _ H A). }
    clear C. destruct (SC _ H) as ((o & red & L & Sp) & (y & Iy) & Cl).
    apply sb in E. destruct E as (cc & s1 & Ec & E). cbn [t_concept] in Ec. apply lifted in Ec. destruct Ec as [Ty ->].
    destruct cc as [cc|].
    { apply (wide_type cfg snap _ (WidensSame _)) in Ty. destruct Ty as (k' & [= <-] & (c' & L' & S')). congruence. }
    apply sb in E. destruct E as (rr & s1 & Er & _). unfold or_else at 1 in Er. apply sb in Er. destruct Er as (o1 & s3 & Er & _).
    cbn [t_concept opt_then] in Er. unfold reduce_concept in Er. apply sb in Er. destruct Er as (m & s4 & R & Er).
    apply read_ok in R. destruct R as [R ->]. cbn [new_env e_infer smem existsb] in Er.
    unfold or_else in Er. apply sb in Er. destruct Er as (o2 & s4 & E2 & _). clear rr s1 o1 s3.
    unfold known in R. apply (wide_back cfg snap _ (WidensSame _)) in R. destruct R as (o' & L' & ->). rewrite L in L'. injection L' as <-.
    unfold infer_reduction, and_then in E2. apply sb in E2. destruct E2 as (im & s5 & E1 & E2).
    apply lifted in E1. destruct E1 as [Ci ->]. cbn [new_env e_delta] in Ci. rewrite CM in Ci. injection Ci as <-.
    destruct Iy as (im & p & q & Bi & Cp & Cq). rewrite (UM _ Bi) in Cp. clear im Bi.
    unfold or_else at 1 in E2. apply sb in E2. destruct E2 as (o3 & s5 & E2 & _).
    cbn [m_find_as_hand mixed_of_committed ch_right aget] in E2. unfold find_as_hand, hand_of in E2.
    destruct (LC _ _ _ Cp) as [_ (o' & L' & A)]. rewrite L in L'. injection L' as <-. rewrite A in E2. cbn [option_map opt_then] in E2.
    apply sb in E2. destruct E2 as (cm & s6 & R & E2). apply read_ok in R. destruct R as [R ->].
    unfold known in R. apply (wide_back cfg snap _ (WidensSame _)) in R. destruct R as (op & Lp & ->).
    destruct (LC _ _ _ Cq) as [_ (op' & Lp' & Aq)]. rewrite Lp in Lp'. injection Lp' as <-.
    assert (Iq : In (Committed y, Committed q) (m_iter_hand_of cfg (mixed_of_committed op) HRight)).
    { apply (committed_hands cfg F). exists y, q. split; [reflexivity|]. split; [reflexivity|]. exact (aget_listed _ _ _ Aq). }
    assert (Al : forall z w, In (z, w) (m_iter_hand_of cfg (mixed_of_committed op) HRight) -> exists j, z = Committed j /\ S j).
    { intros z w J. apply (committed_hands cfg F) in J. destruct J as (j & pj & -> & -> & J). exists j. split; [reflexivity|].
      apply Cl. exists imp, p, pj. split; [exact BM|]. split; [exact Cp|]. apply LR. right. exists op. split; [exact Lp|].
      exact (keyed_in _ _ _ (HK _ _ HRight Lp) J). }
    destruct (m_iter_hand_of cfg (mixed_of_committed op) HRight) as [|[z w] l]; [destruct Iq|].
    destruct (Al z w (or_introl eq_refl)) as (j & -> & Sj). cbn [find_map] in E2.
    unfold or_else in E2. apply sb in E2. destruct E2 as (o4 & s7 & E2 & _).
    apply sb in E2. destruct E2 as (cond & s8 & Et & E2). destruct (unheard_tree _ _ _ _ _ Sj U Et) as [Lj U8].
    unfold and_then in E2. apply sb in E2. destruct E2 as (o5 & s9 & E2 & _). exact (IH _ _ _ _ _ Sj Lj U8 E2).
  Qed.
  Lemma circle_normal_form n k t why s r s' : S k -> leaf_of k t -> unheard s -> o_nf (ops n) own t why s = Ok (r, s') -> False.
  Proof.
    intros H Lf U E. destruct n as [|n]; [discriminate|]. cbn [search step o_nf] in E. unfold normal_form in E.
    apply sb in E. destruct E as (rr & s1 & Er & _). exact (circle_reduce _ _ _ _ _ _ H Lf U Er).
  Qed.
  Lemma circle_expand n k s w kd t s' : S k -> unheard s ->
    o_expand (ops n) own (TLeaf w (Some (Committed k)) kd) s = Ok (t, s') -> unheard s' /\ leaf_of k t.
  Proof.
    intros H U E. destruct n as [|n]; [discriminate|]. cbn [search step o_expand] in E. unfold expand in E.
    cbn [t_concept] in E. apply sb in E. destruct E as (comp & s1 & E1 & E). unfold composition_of_concept, smap in E1.
    apply sb in E1. destruct E1 as (m & s2 & R & [= <- <-]). apply read_ok in R. destruct R as [R ->]. unfold known in R.
    cbn [new_env e_delta] in R. rewrite (proj2 (elementary_string cfg snap _ _ (circle_elementary _ H) R)) in E.
    destruct (unheard_tree n k s t s' H U E). auto.
  Qed.
  Lemma unheard_final s tick : unheard s -> unheard (start_state (final_cache s) tick).
  Proof.
    intros ((H1 & H2 & H3) & U). split; [split; [|split; [exact H2|discriminate]]|].
    - intros h n t X. apply (H1 0). destruct h as [|[|h]]; cbn in X; try destruct X. destruct (s_syn s); exact X.
    - intros k x r H X. apply (U k x r H). cbn in X. destruct (s_red s); exact X.
  Qed.
  Lemma unheard_empty tick : unheard (start_state empty_cache tick).
  Proof. split; [split; [|split; [|discriminate]]|]; [intros [|[|h]] n t []|intros k w r []|intros k x r _ []]. Qed.

  Lemma circle_call n k t c r c' : S k -> leaf_of k t -> c_snap c = snap -> c_delta c = delta_default -> c_bound c = [] ->
    unheard (start_state (c_cache c) (c_tick c)) -> fst (calls cfg fuel n) t c = Ok (r, c') -> False.
  Proof.
    intros H Lf Sn D B U E. destruct n as [|n]; [discriminate|]. cbn [calls fst] in E. unfold call_step in E.
    pose proof (search_clean cfg snap fuel fuel) as Cl.
    destruct (leaf_is _ _ _ N _ _ Lf) as (x & kk & ->). cbn [t_concept t_exp] in E.
    apply bind_back in E. destruct E as (str & c1 & E1 & E).
    apply bind_back in E1. destruct E1 as (m & c2 & E1 & E2). unfold c_read in E1.
    apply lift_clean in E1; [|apply clean_read]. destruct E1 as (-> & m' & -> & R). injection E2 as <- <-.
    rewrite Sn, D in R. rewrite (proj1 (elementary_string cfg snap _ _ (circle_elementary _ H) R)) in E. clear R m'.
    unfold on_irreducible in E. apply bind_back in E. destruct E as (y & c1 & E1 & E).
    apply catch_back in E1. destruct E1 as (z1 & -> & E1). unfold try_reducing_then_call in E1.
    apply bind_back in E1. destruct E1 as (nf & c2 & E2 & _). unfold c_normal_form, with_search in E2. rewrite D, B in E2.
    destruct (smap fst _ (start_state (c_cache c) (c_tick c))) as [[a s]|er|si|] eqn:X; try discriminate E2.
    - unfold ops_of in X. rewrite Sn in X. unfold smap in X. apply sb in X. destruct X as ([a' why] & s1 & X & _).
      exact (circle_normal_form _ _ _ _ _ _ _ H Lf U X).
    - unfold ops_of in X. rewrite Sn in X. revert X. apply sclean_smap, (oc_nf _ Cl).
  Qed.
  Lemma circle_run k w c r c' : S k -> means snap w k -> goes_by snap k w -> is_variable_text w = false ->
    c_snap c = snap -> c_delta c = delta_default -> c_bound c = [] -> c_cache c = empty_cache ->
    run_command cfg fuel w c = Ok (r, c') -> False.
  Proof.
    intros H Me G V Sn D B K E. unfold run_command in E. pose proof (search_clean cfg snap fuel fuel) as Cl.
    apply bind_back in E. destruct E as (t & c1 & E1 & E). rewrite <- Sn in Me. destruct (word_read _ _ _ _ _ _ _ F D Me E1) as (kd & -> & ->).
    apply bind_back in E. destruct E as (t & c1 & E2 & E). unfold c_expand, with_search in E2. rewrite D, B in E2.
    destruct (o_expand _ _ _ (start_state (c_cache c) (c_tick c))) as [[a s]|er|si|] eqn:X; try discriminate E2.
    2:{ unfold ops_of in X. rewrite Sn in X. exact (oc_expand _ Cl _ _ _ _ X). }
    injection E2 as <- <-. unfold ops_of in X. rewrite Sn, K in X.
    destruct (circle_expand _ _ _ _ _ _ _ H (unheard_empty _) X) as [U Lf].
    apply bind_back in E. destruct E as (u & c2 & E2 & E).
    destruct (named_leaf cfg snap fuel LC LR UL lab CI BL k w a Lf G) as (kk & -> & Kk).
    { intros v (o & L & Sp). destruct (proj1 (SC _ H)) as (o' & red & L' & Sp'). congruence. }
    specialize (Kk V). cbn [create_variable_concepts] in E2.
    assert (u = Val (TLeaf w (Some (Committed k)) kk) /\ c2 = match c with Ctx _ _ _ _ _ _ _ => c2 end) as [-> _].
    { split; [|destruct c; reflexivity]. destruct kk; try (exfalso; congruence); cbn in E2; injection E2 as <- <-; reflexivity. }
    refine (circle_call fuel k _ c2 r c' H Lf _ _ _ _ E); destruct kk; try (exfalso; congruence); cbn in E2; injection E2 as <-; cbn; try assumption; try reflexivity.
    - apply unheard_final, U.
    - apply unheard_final, U.
  Qed.
  Lemma circle_executed k w c a c' : ready c -> S k -> means snap w k -> goes_by snap k w -> is_variable_text w = false ->
    c_snap c = snap -> c_delta c = delta_default -> c_bound c = [] -> c_cache c = empty_cache ->
    execute cfg fuel w c <> Ok (a, c').
  Proof.
    intros Rd H Me G V Sn D B K E. destruct (execute_run cfg fuel w c a c' F Rd E) as (x & c1 & E1 & _).
    exact (circle_run _ _ _ _ _ H Me G V Sn D B K E1).
  Qed.
End Store.
