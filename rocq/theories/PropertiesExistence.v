(** C48: what the evaluator goes by when it says that something exists. *)
From Verif Require Import Snapshot Search Context Start History Sample Witness StoreFacts MapFacts AstSpec AstFacts
  RangeFacts Quiet Questions Existence PropertiesQuestions.
From Coq Require Import String List Bool.
Import ListNotations.
Local Open Scope string_scope.

(** Existence is claimed by the rule for `(_x_ exists_such_that) g` only if some concept that is listed
    as reducing to true fits [g] ([fits], Existence.v), and the answer is then true.  Missing for C48:
    that the example found makes [g] true when put for the variable, which is false
    (C48_existence_without_a_witness_refuted): a free variable recorded in a rule counts as an
    example. *)
Theorem C48_existence_goes_by_an_example_partial cfg snap rf n e ll lr g s t why s' :
  reduce_by_expanded_left_branch cfg snap (search cfg snap rf n) e ll lr g s = Ok (Some (t, why), s') ->
  has_type cfg snap e lr CExistsSuchThat /\ is_leaf_variable ll = true /\
  tree_of_type cfg snap rf e CTrue t /\ exists c, holds cfg snap e c /\ fits cfg snap rf e g c.
Proof. exact (existence_fits cfg snap rf n e ll lr g s t why s'). Qed.
Print Assumptions C48_existence_goes_by_an_example_partial.

(** For [g] of the form `_x_ p` or `p _x_` the claim is made exactly when some pair with [p], or with a
    free variable in the place of [p], is listed as reducing to true. *)
Theorem C48_one_sided_claims_are_exact_partial cfg snap rf n e ll lr g x p h q s r s' :
  one_sided cfg snap e g x p h -> t_concept p = Some q ->
  has_type cfg snap e lr CExistsSuchThat -> is_leaf_variable ll = true ->
  reduce_by_expanded_left_branch cfg snap (search cfg snap rf (S (S n))) e ll lr g s = Ok (r, s') ->
  (exists t why, r = Some (t, why) /\ tree_of_type cfg snap rf e CTrue t) <->
  (exists c a b, holds cfg snap e c /\ composed_of cfg snap e c a b /\
     (on_side h a b = q \/ is_free cfg snap e (on_side h a b))).
Proof. exact (existence_exact cfg snap rf n e ll lr g x p h q s r s'). Qed.
Print Assumptions C48_one_sided_claims_are_exact_partial.

(** So a question of this form is answered true whenever a pair with [p] is listed as reducing to true,
    unless an earlier answer is remembered. *)
Theorem C48_known_examples_are_found_partial cfg snap rf n e t g x p h q s r s' :
  existence_question cfg snap e t g -> no_question cfg snap e g ->
  one_sided cfg snap e g x p h -> t_concept p = Some q ->
  lookup_red (e_reds e) (t_key t) (s_red s) = None ->
  o_reduce (search cfg snap rf (S (S (S n)))) e t s = Ok (r, s') ->
  (exists c a b, holds cfg snap e c /\ composed_of cfg snap e c a b /\ on_side h a b = q) ->
  exists y why, r = Some (y, why) /\ tree_of_type cfg snap rf e CTrue y.
Proof.
  intros Q N O T K E (c & a & b & H & C & W).
  apply (existence_answered cfg snap rf n e t g x p h q s r s' Q N O T K E). exists c, a, b. auto.
Qed.
Print Assumptions C48_known_examples_are_found_partial.

(** ** The hypotheses are met *)
(** After `let ((a p) (-> true))` by the question `(_x_ exists_such_that) (_x_ p)`. *)
Definition parts_of (t : tree) : option (tree * tree * tree * tree * tree) :=
  match t_concept t, t_exp t with
  | None, Some (l, g) =>
    match t_exp l, t_exp g with Some (ll, lr), Some (x, p) => Some (ll, lr, g, x, p) | _, _ => None end
  | _, _ => None
  end.
Definition bound_in (c : ctx) (t : tree) : option bool :=
  match contains_bound_variable_syntax cfg0 (c_snap c) (env_of c) t (state_of c) with
  | Ok (b, _) => Some b | _ => None end.
Definition is_bool (b : bool) (o : option bool) : bool := match o with Some x => Bool.eqb x b | None => false end.
Lemma bound_in_true c t : is_bool true (bound_in c t) = true -> open_in cfg0 (c_snap c) (env_of c) t.
Proof.
  unfold bound_in. destruct (contains_bound_variable_syntax _ _ _ _ _) as [[[] s]| | |] eqn:E; try discriminate.
  intros _. exact (opened_ok _ _ _ _ _ _ E).
Qed.
Lemma bound_in_false c t : is_bool false (bound_in c t) = true -> ~ open_in cfg0 (c_snap c) (env_of c) t.
Proof.
  unfold bound_in. destruct (contains_bound_variable_syntax _ _ _ _ _) as [[[] s]| | |] eqn:E; try discriminate.
  intros _. exact (closed_ok _ _ _ _ _ _ E).
Qed.
(** Some concept listed as reducing to true is composed of something and [q]. *)
Definition composed_with (c : ctx) (q d : cid) : bool :=
  match read_concept cfg0 (c_snap c) (c_delta c) d with
  | Ok m => match m_composition m with Some (_, b) => cid_eqb b q | None => false end
  | _ => false
  end.
Definition declared_with (c : ctx) (q : cid) : bool :=
  match concrete_concept_id cfg0 (c_snap c) (c_delta c) CTrue with
  | Ok (Some t) =>
    match read_concept cfg0 (c_snap c) (c_delta c) t with
    | Ok m => existsb (composed_with c q) (m_reduces_from cfg0 m)
    | _ => false
    end
  | _ => false
  end.
Lemma declared_with_ok c q : declared_with c q = true ->
  exists d a b, holds cfg0 (c_snap c) (env_of c) d /\ composed_of cfg0 (c_snap c) (env_of c) d a b /\
    on_side HRight a b = q.
Proof.
  unfold declared_with. destruct (concrete_concept_id _ _ _ _) as [[t|]| | |] eqn:E1; try discriminate.
  destruct (read_concept _ _ _ t) as [m| | |] eqn:E2; try discriminate. intros H. apply existsb_exists in H.
  destruct H as (d & I & H). unfold composed_with in H.
  destruct (read_concept _ _ _ d) as [md| | |] eqn:E3; try discriminate.
  destruct (m_composition md) as [[a b]|] eqn:E4; [|discriminate]. destruct (cid_eqb_spec b q) as [->|]; [|discriminate].
  exists d, a, q. split.
  - exists t. split; [exact E1|]. exists m. split; [exact E2|exact I].
  - split; [|reflexivity]. exists md. split; [exact E3|exact E4].
Qed.
Definition exists_check (c1 : ctx) (t : tree) : bool :=
  match parts_of t with
  | Some (ll, lr, g, x, p) =>
    opt_cct_eqb (type_in c1 lr) (Some CExistsSuchThat) && is_leaf_variable ll &&
    match t_exp x, t_concept p with None, Some q => declared_with c1 q | _, _ => false end &&
    is_bool true (bound_in c1 x) && is_bool false (bound_in c1 p) &&
    match type_in c1 x with None => true | _ => false end && negb (red_cached c1 t) &&
    match o_reduce (search cfg0 (c_snap c1) fuel0 fuel0) (env_of c1) t (state_of c1) with
    | Ok _ => true | _ => false end &&
    match reduce_by_expanded_left_branch cfg0 (c_snap c1) (search cfg0 (c_snap c1) fuel0 fuel0) (env_of c1) ll lr g
            (state_of c1) with
    | Ok _ => true | _ => false end
  | None => false
  end.
Definition exists_checks (_ : list text) (c : ctx) : bool :=
  match read_tree cfg0 fuel0 (txt "(_x_ exists_such_that) (_x_ p)") c with
  | Ok (Val t, c1) => exists_check c1 t
  | _ => false
  end.
Lemma exists_checked :
  on_session (run_session cfg0 fuel0 (map txt ["let ((a p) (-> true))"]) context0) exists_checks = true.
Proof. vm_compute. reflexivity. Qed.
Lemma exists_ok c1 t : exists_check c1 t = true ->
  exists ll lr g x p q r s' r' s'',
    existence_question cfg0 (c_snap c1) (env_of c1) t g /\ no_question cfg0 (c_snap c1) (env_of c1) g /\
    has_type cfg0 (c_snap c1) (env_of c1) lr CExistsSuchThat /\ is_leaf_variable ll = true /\
    one_sided cfg0 (c_snap c1) (env_of c1) g x p HRight /\ t_concept p = Some q /\
    lookup_red (e_reds (env_of c1)) (t_key t) (s_red (state_of c1)) = None /\
    o_reduce (search cfg0 (c_snap c1) fuel0 fuel0) (env_of c1) t (state_of c1) = Ok (r, s') /\
    reduce_by_expanded_left_branch cfg0 (c_snap c1) (search cfg0 (c_snap c1) fuel0 fuel0) (env_of c1) ll lr g
      (state_of c1) = Ok (r', s'') /\
    exists c a b, holds cfg0 (c_snap c1) (env_of c1) c /\ composed_of cfg0 (c_snap c1) (env_of c1) c a b /\
      on_side HRight a b = q.
Proof.
  unfold exists_check, parts_of. destruct (t_concept t) eqn:T; [discriminate|].
  destruct (t_exp t) as [[l g]|] eqn:X; [|discriminate]. destruct (t_exp l) as [[ll lr]|] eqn:Xl; [|discriminate].
  destruct (t_exp g) as [[x p]|] eqn:Xg; [|discriminate]. intros K.
  apply andb_prop in K. destruct K as [K K9]. apply andb_prop in K. destruct K as [K K8].
  apply andb_prop in K. destruct K as [K K7]. apply andb_prop in K. destruct K as [K K6].
  apply andb_prop in K. destruct K as [K K5]. apply andb_prop in K. destruct K as [K K4].
  apply andb_prop in K. destruct K as [K K3]. apply andb_prop in K. destruct K as [K1 K2].
  apply type_in_ok in K1. apply bound_in_true in K4. apply bound_in_false in K5.
  destruct (t_exp x) eqn:Xx; [discriminate|]. destruct (t_concept p) as [q|] eqn:Tp; [|discriminate].
  apply declared_with_ok in K3. apply negb_true_iff, red_cached_ok in K7.
  destruct (o_reduce _ _ _ _) as [[r s']| | |] eqn:E1; try discriminate.
  destruct (reduce_by_expanded_left_branch _ _ _ _ _ _ _ _) as [[r' s'']| | |] eqn:E2; try discriminate.
  exists ll, lr, g, x, p, q, r, s', r', s''.
  split; [split; [exact T|]; exists l, ll, lr; auto|].
  split.
  { intros rl rr E. rewrite Xg in E. injection E as <- <-. unfold type_in in K6.
    assert (Z : forall cc, ~ has_type cfg0 (c_snap c1) (env_of c1) x cc); [|split; apply Z].
    intros cc (id & H1 & H2). rewrite H1 in K6. cbn [env_of new_env e_delta] in H2. rewrite H2 in K6. discriminate. }
  split; [exact K1|]. split; [exact K2|]. split; [split; [exact Xg|split; [exact Xx|split; [exact K4|exact K5]]]|].
  split; [first [exact Tp|reflexivity]|]. split; [exact K7|]. split; [first [exact E1|reflexivity]|]. split; [first [exact E2|reflexivity]|exact K3].
Qed.
Lemma exact_at N n e snap ll lr g x p h q s r s' : N = S (S n) ->
  one_sided cfg0 snap e g x p h -> t_concept p = Some q ->
  has_type cfg0 snap e lr CExistsSuchThat -> is_leaf_variable ll = true ->
  reduce_by_expanded_left_branch cfg0 snap (search cfg0 snap fuel0 N) e ll lr g s = Ok (r, s') ->
  (exists c a b, holds cfg0 snap e c /\ composed_of cfg0 snap e c a b /\ on_side h a b = q) ->
  exists t why, r = Some (t, why) /\ tree_of_type cfg0 snap fuel0 e CTrue t.
Proof.
  intros -> O T L V E (d & a & b & A & B & C).
  apply (C48_one_sided_claims_are_exact_partial cfg0 snap fuel0 n e ll lr g x p h q s r s' O T L V E).
  exists d, a, b. auto.
Qed.
Example C48_apply :
  exists c t c1 ll lr g x p q r s' y why s'',
    reachable true c /\ read_tree cfg0 fuel0 (txt "(_x_ exists_such_that) (_x_ p)") c = Ok (Val t, c1) /\
    existence_question cfg0 (c_snap c1) (env_of c1) t g /\ no_question cfg0 (c_snap c1) (env_of c1) g /\
    one_sided cfg0 (c_snap c1) (env_of c1) g x p HRight /\ t_concept p = Some q /\
    lookup_red (e_reds (env_of c1)) (t_key t) (s_red (state_of c1)) = None /\
    o_reduce (search cfg0 (c_snap c1) fuel0 fuel0) (env_of c1) t (state_of c1) = Ok (r, s') /\
    reduce_by_expanded_left_branch cfg0 (c_snap c1) (search cfg0 (c_snap c1) fuel0 fuel0) (env_of c1) ll lr g
      (state_of c1) = Ok (Some (y, why), s'') /\ tree_of_type cfg0 (c_snap c1) fuel0 (env_of c1) CTrue y.
Proof.
  destruct (session_witness _ _ exists_checked) as (rs & c & _ & R & K). unfold exists_checks in K.
  destruct (read_tree _ _ _ c) as [[[t|] c1]| | |] eqn:E; try discriminate.
  destruct (exists_ok _ _ K) as (ll & lr & g & x & p & q & r & s' & r' & s'' & H1 & H2 & H3 & H4 & H5 & H6 & H7 & H8 & H9 & H10).
  assert (W : exists y why, r' = Some (y, why) /\ tree_of_type cfg0 (c_snap c1) fuel0 (env_of c1) CTrue y).
  { exact (exact_at fuel0 198 (env_of c1) (c_snap c1) ll lr g x p HRight q (state_of c1) r' s'' eq_refl H5 H6 H3 H4 H9 H10). }
  destruct W as (y & why & -> & Ty).
  exists c, t, c1, ll, lr, g, x, p, q, r, s', y, why, s''. repeat (split; [assumption|]). exact Ty.
Qed.
