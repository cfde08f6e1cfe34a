(** Expanding what was read: words that stand for concepts without parts stay what they are. *)
From Verif Require Import Snapshot Search Context StoreSpec MapFacts AstFacts StoreFacts StoreInv
  RangeFacts History SearchKeeps SearchCaches Questions Existence Wide Earned CacheRun Shapes OwnTrees.
From Coq Require Import String List PeanoNat Lia Bool.
Import ListNotations.
Local Open Scope zia_scope.

Section Follow.
  Variables (cfg : config) (snap : snapshot) (rf : nat).
  Hypothesis D : dbg cfg = true.
  Hypothesis N : self_numbered snap.
  Notation ops n := (search cfg snap rf n).
  Lemma combined_exp o e l r s t s' : combine_ast cfg snap o e l r s = Ok (t, s') -> t_exp t = Some (l, r).
  Proof.
    intros E. unfold combine_ast, sbind in E. apply obind_ok in E. destruct E as ([k s1] & _ & E).
    apply obind_ok in E. destruct E as ([y s2] & E1 & E).
    unfold join, sbind in E1. apply obind_ok in E1. destruct E1 as ([x s3] & _ & [= <- <-]).
    assert (B : forall y, t_exp (bind_pair y l r) = Some (l, r)).
    { intros y. unfold bind_pair, branch. destruct (pair_vars l r). reflexivity. }
    destruct k as [id|]; [|injection E as <- _; apply B].
    unfold slift in E. apply obind_ok in E. destruct E as (y & E & [= <- _]).
    specialize (B (from_text x)). destruct (bind_pair (from_text x) l r) as [|s4 c4 l4 r4 fv bv]; [discriminate B|].
    unfold bind_concept_to_syntax in E. apply obind_ok in E. destruct E as (ty & _ & E).
    destruct (opt_cct_eqb _ _).
    - unfold bind_quantifier in E. rewrite D in E. discriminate E.
    - injection E as <-. exact B.
  Qed.

  Variable d : delta.
  (** [t] has the shape of [u] as far as the parts of [u] have no concept, and where [u] has a
      leaf for a concept without parts, [t] has a leaf for it. *)
  Fixpoint follows (u t : tree) : Prop :=
    match u with
    | TLeaf _ (Some x) _ => (forall m, read_concept cfg snap d x = Ok m -> plain cfg snap d x) -> exists s k, t = TLeaf s (Some x) k
    | TBranch _ None l r _ _ => exists l' r', t_exp t = Some (l', r') /\ follows l l' /\ follows r r'
    | _ => True
    end.
  Lemma expand_follows : forall u n e s t s', own cfg snap d e -> e_delta e = d -> own_trees cfg snap d s ->
    o_expand (ops n) e u s = Ok (t, s') -> follows u t.
  Proof.
    induction u as [w [x|] k|w [x|] l IHl r IHr fv bv]; intros n e s t s' Se De H E; try exact I.
    - intros Px. destruct n as [|n]; [discriminate|]. cbn [search step o_expand] in E. unfold expand in E. cbn [t_concept] in E.
      apply sb in E. destruct E as (comp & s1 & Ec & E). unfold composition_of_concept in Ec. unfold smap in Ec.
      apply sb in Ec. destruct Ec as (m & s2 & Ec & Ec'). injection Ec' as <- <-. apply read_ok in Ec. destruct Ec as [R ->]. unfold known in R. rewrite De in R.
      specialize (Px _ R). pose proof Px as (_ & m' & R' & C & _). rewrite R in R'. injection R' as <-. rewrite C in E.
      exact (own_tree cfg snap rf N d n e x s t s' Se H Px E).
    - destruct n as [|n]; [discriminate|]. cbn [search step o_expand] in E. unfold expand in E. cbn [t_concept t_exp] in E.
      apply sb in E. destruct E as (l' & s1 & El & E). apply sb in E. destruct E as (r' & s2 & Er & E).
      exists l', r'. split; [exact (combined_exp _ _ _ _ _ _ _ E)|]. split; [exact (IHl n e s l' s1 Se De H El)|].
      pose proof (search_kp _ _ _ _ _ _ _ _ (own_laws cfg snap rf N d) n) as K.
      destruct (kp_expand _ _ _ _ K e l Se s l' s1 H El) as [H1 _]. exact (IHr n e s1 r' s2 Se De H1 Er).
  Qed.
End Follow.
Lemma c_expand_follows cfg fuel u c t c' :
  dbg cfg = true -> self_numbered (c_snap c) -> own_cache cfg c -> c_expand cfg fuel u c = Ok (Val t, c') ->
  follows cfg (c_snap c) (c_delta c) u t.
Proof.
  intros D N H E. unfold c_expand, with_search in E.
  destruct (o_expand (ops_of cfg fuel c) (new_env (c_delta c) (c_bound c)) u (start_state (c_cache c) (c_tick c))) as [[y s]| | |] eqn:X; try discriminate.
  injection E as -> _. eapply (expand_follows cfg (c_snap c) fuel D N (c_delta c) u); [| | |exact X].
  - split; [constructor|]. intros x v G. discriminate G.
  - reflexivity.
  - intros [|[|h]] x v J; cbn in J; try contradiction. apply H, J.
Qed.
