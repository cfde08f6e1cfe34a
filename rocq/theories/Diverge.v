(** A command that never ends, however large the bound on the recursion. *)
From Verif Require Import Start Snapshot StoreSpec MapFacts AstFacts RangeFacts History Sample Witness Fuel.
From Coq Require Import String List Bool Lia.
Import ListNotations.
Local Open Scope string_scope.

(** Going from one bound to another. *)
Lemma below_at A (x : nat -> outcome A) k n v :
  (forall n m, le n m -> below (x n) (x m)) -> x k = v -> v <> OutOfFuel ->
  x n = OutOfFuel \/ x n = v.
Proof.
  intros H E N. destruct (Compare_dec.le_ge_dec n k) as [K|K]; destruct (H _ _ K) as [K'|K'].
  - left. exact K'.
  - right. congruence.
  - congruence.
  - right. congruence.
Qed.

(** ** Two concepts that are cached as each other's reductions *)
Definition swapped (e : env) (a b : tree) (s : sstate) : Prop :=
  (exists r, lookup_red (e_reds e) (t_key a) (s_red s) = Some (Some (b, r))) /\
  (exists r, lookup_red (e_reds e) (t_key b) (s_red s) = Some (Some (a, r))).
Lemma reduce_cached cfg snap rf n e a b r s :
  lookup_red (e_reds e) (t_key a) (s_red s) = Some (Some (b, r)) ->
  o_reduce (search cfg snap rf n) e a s = OutOfFuel \/
  o_reduce (search cfg snap rf n) e a s = Ok (Some (b, r), s).
Proof.
  intros E. destruct n as [|n]; [left; reflexivity|]. right. cbn [search step o_reduce]. unfold reduce, sbind.
  unfold cached_reduction. cbn [obind]. rewrite E. reflexivity.
Qed.
Lemma nf_swapped cfg snap rf e n : forall a b s w,
  swapped e a b s -> o_nf (search cfg snap rf n) e a w s = OutOfFuel.
Proof.
  induction n as [|n IH]; intros a b s w S; [reflexivity|].
  cbn [search step o_nf]. unfold normal_form, sbind. destruct S as [[r Ea] Eb].
  destruct (reduce_cached cfg snap rf n e a b r s Ea) as [->| ->]; [reflexivity|]. cbn [obind].
  apply (IH b a). split; [exact Eb|]. exists r. exact Ea.
Qed.

Section Reaches.
  Variables (cfg : config) (snap : snapshot) (e : env) (k : nat).
  (** One step of a normal form. *)
  Lemma nf_step rf n t s w t' why s' :
    o_reduce (search cfg snap k k) e t s = Ok (Some (t', why), s') ->
    (forall n w, o_nf (search cfg snap rf n) e t' w s' = OutOfFuel) ->
    le k rf -> o_nf (search cfg snap rf n) e t w s = OutOfFuel.
  Proof.
    intros E H Lk. destruct n as [|n]; [reflexivity|]. cbn [search step o_nf]. unfold normal_form, sbind.
    assert (K : o_reduce (search cfg snap rf n) e t s = OutOfFuel \/
                o_reduce (search cfg snap rf n) e t s = Ok (Some (t', why), s')).
    { apply (below_at _ (fun m => o_reduce (search cfg snap rf m) e t s) k n).
      - intros i j Lij. apply (ob_reduce (search_mono cfg snap (le_n rf) Lij)).
      - destruct (ob_reduce (search_mono cfg snap Lk (le_n k)) e t s) as [D|D]; congruence.
      - discriminate. }
    destruct K as [->| ->]; [reflexivity|]. cbn [obind]. apply H.
  Qed.
End Reaches.

(** ** The session *)
Definition cycle_leaf (s : string) (n : nat) : tree := TLeaf (txt s) (Some (Committed n)) LConstant.
Definition tree_a := cycle_leaf "a" 82.
Definition tree_b := cycle_leaf "b" 86.

Definition same_leaf (t u : tree) : bool :=
  match t, u with
  | TLeaf s (Some c) LConstant, TLeaf s' (Some c') LConstant => text_eqb s s' && cid_eqb c c'
  | _, _ => false
  end.
Lemma same_leaf_eq t u : same_leaf t u = true -> t = u.
Proof.
  destruct t as [s [c|] []|], u as [s' [c'|] []|]; cbn; try discriminate. intros E.
  apply andb_prop in E. destruct E as [E1 E2].
  destruct (text_eqb_spec s s'); [|discriminate]. destruct (cid_eqb_spec c c'); [|discriminate].
  subst. reflexivity.
Qed.
Definition steps_to (t : tree) (x : outcome (rresult * sstate)) (next : sstate -> bool) : bool :=
  match x with Ok (Some (t', _), s') => same_leaf t' t && next s' | _ => false end.
Lemma steps_to_ok t x next :
  steps_to t x next = true -> exists why s', x = Ok (Some (t, why), s') /\ next s' = true.
Proof.
  intros E. destruct x as [[[[t' why]|] s']| | |]; try discriminate E. cbn [steps_to] in E.
  apply andb_prop in E. destruct E as [E1 E2]. apply same_leaf_eq in E1. subst t'.
  exists why, s'. split; [reflexivity|exact E2].
Qed.
Definition swapped_b (e : env) (a b : tree) (s : sstate) : bool :=
  match lookup_red (e_reds e) (t_key a) (s_red s), lookup_red (e_reds e) (t_key b) (s_red s) with
  | Some (Some (b', _)), Some (Some (a', _)) => same_leaf b' b && same_leaf a' a
  | _, _ => false
  end.
Lemma swapped_b_ok e a b s : swapped_b e a b s = true -> swapped e a b s.
Proof.
  unfold swapped_b, swapped. intros E.
  destruct (lookup_red (e_reds e) (t_key a) (s_red s)) as [[[b' r]|]|]; try discriminate E.
  destruct (lookup_red (e_reds e) (t_key b) (s_red s)) as [[[a' r']|]|]; try discriminate E.
  apply andb_prop in E. destruct E as [E1 E2]. apply same_leaf_eq in E1, E2. subst.
  split; eexists; reflexivity.
Qed.

(** What the parser, the expansion and the first two reductions do, with enough fuel. *)
Definition enough : nat := 60.
Definition parsed_ctx (x : outcome (zres tree * ctx)) (k : tree -> ctx -> bool) : bool :=
  match x with Ok (Val t, c) => k t c | _ => false end.
Lemma parsed_ctx_ok x k : parsed_ctx x k = true -> exists t c, x = Ok (Val t, c) /\ k t c = true.
Proof.
  intros E. destruct x as [[[t|] c]| | |]; try discriminate E. exists t, c. split; [reflexivity|exact E].
Qed.
Definition two_reductions (c : ctx) : bool :=
  let e := new_env (c_delta c) (c_bound c) in
  let red t s := o_reduce (search cfg0 (c_snap c) enough enough) e t s in
  steps_to tree_b (red tree_a (start_state (c_cache c) (c_tick c))) (fun s1 =>
  steps_to tree_a (red tree_b s1) (fun s2 => swapped_b e tree_a tree_b s2)).
Definition plain_leaf (c : ctx) (n : nat) : bool :=
  match read_concept cfg0 (c_snap c) (c_delta c) (Committed n) with
  | Ok m => match m_string m with None => true | Some _ => false end
  | _ => false
  end.
Definition cycle_run (c : ctx) : bool :=
  parsed_ctx (ast_from_expression cfg0 enough (txt "a") c) (fun t c1 =>
    parsed_ctx (c_expand cfg0 enough t c1) (fun t2 c2 =>
      same_leaf t2 tree_a && plain_leaf c2 82 && two_reductions c2)).
Lemma two_reductions_diverge c rf n w :
  two_reductions c = true -> le enough rf ->
  o_nf (search cfg0 (c_snap c) rf n) (new_env (c_delta c) (c_bound c)) tree_a w
       (start_state (c_cache c) (c_tick c)) = OutOfFuel.
Proof.
  intros E Lk. unfold two_reductions in E. cbv zeta in E.
  apply steps_to_ok in E. destruct E as (why & s1 & E1 & E).
  apply steps_to_ok in E. destruct E as (why2 & s2 & E2 & E). apply swapped_b_ok in E.
  eapply nf_step; [exact E1| |exact Lk]. intros n1 w1.
  eapply nf_step; [exact E2| |exact Lk]. intros n2 w2.
  exact (nf_swapped _ _ _ _ _ _ _ _ _ E).
Qed.

Lemma call_diverges n t k c :
  t_concept t = Some (Committed k) -> t_exp t = None -> plain_leaf c k = true ->
  c_normal_form cfg0 n t c = OutOfFuel -> call cfg0 n t c = OutOfFuel.
Proof.
  intros Ec Ee P N. unfold call. destruct n as [|n]; [reflexivity|]. cbn [calls fst].
  remember (S n) as m eqn:Em. unfold call_step. rewrite Ec, Ee.
  unfold cbind at 1. unfold cbind at 1. unfold c_read, clift. unfold plain_leaf in P.
  destruct (read_concept cfg0 (c_snap c) (c_delta c) (Committed k)) as [x| | |]; try discriminate P.
  cbn [obind]. unfold cret at 1. destruct (m_string x); [discriminate P|].
  cbn [obind]. unfold on_irreducible. unfold cbind at 1. unfold catch.
  unfold try_reducing_then_call. unfold cbind at 1. rewrite N. reflexivity.
Qed.
Lemma cycle_diverges_large c n :
  cycle_run c = true -> le enough n -> execute cfg0 n (txt "a") c = OutOfFuel.
Proof.
  intros E Ln. unfold cycle_run in E.
  apply parsed_ctx_ok in E. destruct E as (t & c1 & E1 & E).
  apply parsed_ctx_ok in E. destruct E as (t2 & c2 & E2 & E).
  apply andb_prop in E. destruct E as [E E3]. apply andb_prop in E. destruct E as [E4 E5].
  apply same_leaf_eq in E4. subst t2.
  assert (P : ast_from_expression cfg0 n (txt "a") c = Ok (Val t, c1)).
  { destruct (ast_from_expression_mono cfg0 Ln (txt "a") c) as [D|D]; congruence. }
  assert (X : c_expand cfg0 n t c1 = Ok (Val tree_a, c2)).
  { destruct (c_expand_mono cfg0 Ln t c1) as [D|D]; congruence. }
  clear E1 E2.
  assert (N : c_normal_form cfg0 n tree_a c2 = OutOfFuel).
  { unfold c_normal_form, with_search, smap, sbind, ops_of.
    rewrite (two_reductions_diverge c2 n n None E3 Ln). reflexivity. }
  assert (C : call cfg0 n tree_a c2 = OutOfFuel).
  { apply (call_diverges n tree_a 82 c2); [reflexivity|reflexivity|exact E5|exact N]. }
  unfold execute, execute_without_closing_scope, catch, run_command.
  unfold cbind at 1. unfold cbind at 1. rewrite P. cbn [obind].
  unfold cbind at 1. rewrite X. cbn [obind]. unfold cbind at 1.
  change (create_variable_concepts tree_a c2) with (Ok (Val tree_a, c2)). cbn [obind].
  rewrite C. reflexivity.
Qed.
Lemma cycle_diverges c n : cycle_run c = true -> execute cfg0 n (txt "a") c = OutOfFuel.
Proof.
  intros E. pose proof (cycle_diverges_large c (n + enough) E) as H.
  destruct (execute_mono cfg0 (PeanoNat.Nat.le_add_r n enough) (txt "a") c) as [D|D]; [exact D|].
  rewrite D. apply H. lia.
Qed.
Lemma cycle_session :
  on_session (run_session cfg0 fuel0 (map txt cycle_commands) context0) (fun _ c => cycle_run c) = true.
Proof. vm_compute. reflexivity. Qed.
Lemma never_ends :
  exists c rs, reachable true c /\
    run_session cfg0 fuel0 (map txt cycle_commands) context0 = Ok (rs, c) /\
    forall n, execute cfg0 n (txt "a") c = OutOfFuel.
Proof.
  destruct (session_witness _ _ cycle_session) as (rs & c & E & R & H).
  exists c, rs. split; [exact R|]. split; [exact E|]. intros n. apply cycle_diverges. exact H.
Qed.
