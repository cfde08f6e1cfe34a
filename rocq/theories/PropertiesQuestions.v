(** The questions [x -> y] and [x > y]: C27, C28, C29 and a part of C16. *)
From Verif Require Import Start Snapshot Search Context StoreSpec FrameSpec MapFacts AstFacts RangeFacts History
  Sample Witness NameWitness Quiet PropertiesFrames PropertiesReductions Questions Chains.
From Coq Require Import String List Bool PeanoNat Lia.
Import ListNotations.
Local Open Scope string_scope.

(** ** C28 *)
(** In every state of every search: the tree [x -> x] is answered with the tree of false, unless it is
    a concept of its own or its answer is in the cache.  (It is not answered in a store that has no
    concept for false.) *)
Theorem C28_nothing_reduces_to_itself_partial cfg snap rf n e t x op y s r s' :
  is_question t x op y -> has_type cfg snap e op CReduction -> t_key x = t_key y ->
  lookup_red (e_reds e) (t_key t) (s_red s) = None ->
  o_reduce (search cfg snap rf (S n)) e t s = Ok (r, s') ->
  (exists f, r = Some (f, RSyntaxCannotReduceToItself) /\ tree_of_type cfg snap rf e CFalse f) \/
  concrete_concept_id cfg snap (e_delta e) CFalse = Ok None.
Proof. exact (arrow_self cfg snap rf n e t x op y s r s'). Qed.
Print Assumptions C28_nothing_reduces_to_itself_partial.

(** When the question [l -> r] is answered by the rules for questions, then it is answered true only
    if one or more reductions lead from [l] to [r], and false only if the two are the same or
    reductions lead the other way. *)
Theorem C28_true_only_along_reductions_partial cfg snap rf n e l op r s t why s' :
  has_type cfg snap e op CReduction ->
  reduce_by_expanded_right_branch cfg snap (search cfg snap rf n) e l op r s = Ok (Some (t, why), s') ->
  (tree_of_type cfg snap rf e CTrue t /\ t_key l <> t_key r /\ leads (reduces_to cfg snap rf e) l r) \/
  (tree_of_type cfg snap rf e CFalse t /\ (t_key l = t_key r \/ leads (reduces_to cfg snap rf e) r l)).
Proof. exact (arrow_answer cfg snap rf n e l op r s t why s'). Qed.
Print Assumptions C28_true_only_along_reductions_partial.

(** ** C29 *)
(** Comparing an expression with itself gives equal, whatever is declared. *)
Theorem C29_equal_to_itself_partial cfg snap rf n e a b s :
  t_key a = t_key b ->
  Search.compare cfg snap (search cfg snap rf n) e a b s = Ok ((EqualTo, CRSameSyntax), s).
Proof. exact (compare_same cfg snap rf n e a b s). Qed.
Print Assumptions C29_equal_to_itself_partial.

(** The tree [x > x] is answered with the tree of false, with the same exceptions as for C28. *)
Theorem C29_nothing_is_greater_than_itself_partial cfg snap rf n e t x op y s r s' :
  is_question t x op y -> has_type cfg snap e op CGreaterThan -> t_key x = t_key y ->
  lookup_red (e_reds e) (t_key t) (s_red s) = None ->
  o_reduce (search cfg snap rf (S n)) e t s = Ok (r, s') ->
  (exists f, r = Some (f, RComparison CRSameSyntax) /\ tree_of_type cfg snap rf e CFalse f) \/
  concrete_concept_id cfg snap (e_delta e) CFalse = Ok None.
Proof. exact (greater_self cfg snap rf n e t x op y s r s'). Qed.
Print Assumptions C29_nothing_is_greater_than_itself_partial.

(** The question [l > r] is answered true only for the verdict "greater than" and false only for the
    verdicts that exclude it. *)
Theorem C29_answers_follow_the_comparison_partial cfg snap rf n e l op r s t why s' :
  has_type cfg snap e op CGreaterThan ->
  reduce_by_expanded_right_branch cfg snap (search cfg snap rf n) e l op r s = Ok (Some (t, why), s') ->
  exists c cr s1, Search.compare cfg snap (search cfg snap rf n) e l r s = Ok ((c, cr), s1) /\
    why = RComparison cr /\
    ((c = GreaterThan /\ tree_of_type cfg snap rf e CTrue t) \/
     ((c = EqualTo \/ c = LessThan \/ c = LessThanOrEqualTo) /\ tree_of_type cfg snap rf e CFalse t)).
Proof. exact (greater_answer cfg snap rf n e l op r s t why s'). Qed.
Print Assumptions C29_answers_follow_the_comparison_partial.

(** The verdicts on (a, b) and on (b, a) are opposite whenever the two questions [a > b] and [b > a]
    were answered alike in both comparisons.  Missing: that they always are. *)
Theorem C29_opposite_verdicts_partial cfg snap rf n1 n2 e a b s1 c1 w1 s1' s2 c2 w2 s2' :
  Search.compare cfg snap (search cfg snap rf n1) e a b s1 = Ok ((c1, w1), s1') ->
  Search.compare cfg snap (search cfg snap rf n2) e b a s2 = Ok ((c2, w2), s2') ->
  c2 = opposite c1 \/
  exists q r q' r' ab ba ab' ba',
    asks cfg snap rf e a b q /\ asks cfg snap rf e b a r /\ asks cfg snap rf e a b q' /\ asks cfg snap rf e b a r' /\
    answered cfg snap rf e q ab /\ answered cfg snap rf e r ba /\
    answered cfg snap rf e q' ab' /\ answered cfg snap rf e r' ba' /\ (ab, ba) <> (ab', ba').
Proof.
  intros E1 E2. destruct (key_eqb_spec (t_key a) (t_key b)) as [K|K].
  - rewrite (compare_same cfg snap rf n1 e a b s1 K) in E1. injection E1 as <- _ _.
    rewrite (compare_same cfg snap rf n2 e b a s2 (eq_sym K)) in E2. injection E2 as <- _ _. auto.
  - destruct (compare_verdict cfg snap rf n1 e a b s1 c1 w1 s1' K E1) as [[G1 ->]|(q & r & ab & ba & A1 & A2 & A3 & A4 & V)];
    destruct (compare_verdict cfg snap rf n2 e b a s2 c2 w2 s2' (not_eq_sym K) E2)
      as [[G2 ->]|(r' & q' & ba' & ab' & B1 & B2 & B3 & B4 & W)].
    + auto.
    + destruct B1 as (g & gb & (m & id & t & t' & G & _) & _). rewrite G1 in G. discriminate.
    + destruct A1 as (g & gb & (m & id & t & t' & G & _) & _). rewrite G2 in G. discriminate.
    + assert (D : (ab, ba) = (ab', ba') \/ (ab, ba) <> (ab', ba')).
      { assert (OD : forall x y : option cct, x = y \/ x <> y) by (intros [[]|] [[]|]; first [left; reflexivity|right; discriminate]).
        destruct (OD ab ab') as [->|N]; [destruct (OD ba ba') as [->|N]|]; [left; reflexivity|right|right]; congruence. }
      destruct D as [D|D].
      * left. injection D as -> ->. apply verdict_opposite in V. congruence.
      * right. exists q, r, q', r', ab, ba, ab', ba'. repeat (split; [assumption|]). assumption.
Qed.
Print Assumptions C29_opposite_verdicts_partial.

(** ** The hypotheses are met *)
(** A question read in the context [c], and the environment and state its evaluation starts from. *)
Definition question (c : ctx) (command : string) : option (tree * tree * tree * tree * ctx) :=
  match read_tree cfg0 fuel0 (txt command) c with
  | Ok (Val t, c1) =>
    match t_concept t, t_exp t with
    | None, Some (x, r) => match t_exp r with Some (op, y) => Some (t, x, op, y, c1) | None => None end
    | _, _ => None
    end
  | _ => None
  end.
Lemma question_ok c command t x op y c1 :
  question c command = Some (t, x, op, y, c1) ->
  read_tree cfg0 fuel0 (txt command) c = Ok (Val t, c1) /\ is_question t x op y.
Proof.
  unfold question. destruct (read_tree _ _ _ _) as [[[u|e] c']| | |]; try discriminate.
  destruct (t_concept u) eqn:C; [discriminate|]. destruct (t_exp u) as [[x' r]|] eqn:X; [|discriminate].
  destruct (t_exp r) as [[op' y']|] eqn:Y; [|discriminate]. intros E. injection E as -> -> -> -> ->.
  split; [reflexivity|]. split; [exact C|]. exists r. auto.
Qed.
Definition env_of (c : ctx) : env := new_env (c_delta c) (c_bound c).
Definition state_of (c : ctx) : sstate := start_state (c_cache c) (c_tick c).
Definition type_in (c : ctx) (t : tree) : option cct :=
  match t_concept t with
  | Some id => match concrete_concept_type cfg0 (c_snap c) (c_delta c) id with Ok ty => ty | _ => None end
  | None => None
  end.
Lemma type_in_ok c t cc : opt_cct_eqb (type_in c t) (Some cc) = true -> has_type cfg0 (c_snap c) (env_of c) t cc.
Proof.
  unfold type_in. destruct (t_concept t) as [id|] eqn:T; [|discriminate].
  destruct (concrete_concept_type _ _ _ _) as [[k|]| | |] eqn:E; try discriminate. intros H.
  exists id. split; [exact T|]. cbn. rewrite E. f_equal. f_equal. destruct k, cc; first [reflexivity|discriminate H].
Qed.
Definition red_cached (c : ctx) (t : tree) : bool :=
  match lookup_red (e_reds (env_of c)) (t_key t) (s_red (state_of c)) with Some _ => true | None => false end.
Lemma red_cached_ok c t : red_cached c t = false ->
  lookup_red (e_reds (env_of c)) (t_key t) (s_red (state_of c)) = None.
Proof. unfold red_cached. destruct (lookup_red _ _ _); [discriminate|reflexivity]. Qed.
(** The question is asked with the operator [cc]; its answer is not known yet and evaluating it gives
    the concept of type [ans]. *)
Definition asked (c : ctx) (command : string) (cc ans : cct) (self : bool) : bool :=
  match question c command with
  | Some (t, x, op, y, c1) =>
    opt_cct_eqb (type_in c1 op) (Some cc) && Bool.eqb self (key_eqb (t_key x) (t_key y)) && negb (red_cached c1 t) &&
    match o_reduce (search cfg0 (c_snap c1) fuel0 fuel0) (env_of c1) t (state_of c1) with
    | Ok (Some (a, _), _) => opt_cct_eqb (type_in c1 a) (Some ans)
    | _ => false
    end &&
    match reduce_by_expanded_right_branch cfg0 (c_snap c1) (search cfg0 (c_snap c1) fuel0 fuel0) (env_of c1) x op y
            (state_of c1) with
    | Ok (Some (a, _), _) => opt_cct_eqb (type_in c1 a) (Some ans)
    | _ => false
    end
  | None => false
  end.
Lemma asked_ok c command cc ans self : asked c command cc ans self = true ->
  exists t x op y c1 a why s' b why' s'',
    read_tree cfg0 fuel0 (txt command) c = Ok (Val t, c1) /\ is_question t x op y /\
    has_type cfg0 (c_snap c1) (env_of c1) op cc /\ (self = true <-> t_key x = t_key y) /\
    lookup_red (e_reds (env_of c1)) (t_key t) (s_red (state_of c1)) = None /\
    o_reduce (search cfg0 (c_snap c1) fuel0 fuel0) (env_of c1) t (state_of c1) = Ok (Some (a, why), s') /\
    reduce_by_expanded_right_branch cfg0 (c_snap c1) (search cfg0 (c_snap c1) fuel0 fuel0) (env_of c1) x op y
      (state_of c1) = Ok (Some (b, why'), s'') /\
    has_type cfg0 (c_snap c1) (env_of c1) b ans.
Proof.
  unfold asked. destruct (question c command) as [[[[[t x] op] y] c1]|] eqn:Q; [|discriminate].
  intros K. apply andb_prop in K. destruct K as [K K5]. apply andb_prop in K. destruct K as [K K4].
  apply andb_prop in K. destruct K as [K K3]. apply andb_prop in K. destruct K as [K1 K2].
  apply question_ok in Q. destruct Q as [Q1 Q2].
  destruct (o_reduce _ _ _ _) as [[[[a why]|] s']| | |] eqn:E1; try discriminate.
  destruct (reduce_by_expanded_right_branch _ _ _ _ _ _ _ _) as [[[[b why']|] s'']| | |] eqn:E2; try discriminate.
  exists t, x, op, y, c1, a, why, s', b, why', s''.
  split; [exact Q1|]. split; [exact Q2|]. split; [apply type_in_ok, K1|].
  split.
  { apply eqb_prop in K2. subst self. destruct (key_eqb_spec (t_key x) (t_key y)); split; congruence. }
  split; [apply red_cached_ok, negb_true_iff, K3|]. split; [exact E1|]. split; [exact E2|apply type_in_ok, K5].
Qed.

Definition questions_check (_ : list text) (c : ctx) : bool :=
  asked c "a -> b" CReduction CTrue false && asked c "b -> a" CReduction CFalse false &&
  asked c "(p q) -> (p q)" CReduction CFalse true && asked c "(p q) > (p q)" CGreaterThan CFalse true &&
  match question c "c (w d)" with
  | Some (_, x, _, y, c1) =>
    match Search.compare cfg0 (c_snap c1) (search cfg0 (c_snap c1) fuel0 fuel0) (env_of c1) x y (state_of c1),
          Search.compare cfg0 (c_snap c1) (search cfg0 (c_snap c1) fuel0 fuel0) (env_of c1) y x (state_of c1) with
    | Ok ((GreaterThan, _), _), Ok ((LessThan, _), _) => true
    | _, _ => false
    end
  | _ => false
  end.
Lemma questions_checked :
  on_session (run_session cfg0 fuel0 (map txt ["let (a -> b)"; "let (c > d) -> true"]) context0) questions_check = true.
Proof. vm_compute. reflexivity. Qed.
Example C28_C29_apply :
  exists c, reachable true c /\
    asked c "a -> b" CReduction CTrue false = true /\ asked c "b -> a" CReduction CFalse false = true /\
    asked c "(p q) -> (p q)" CReduction CFalse true = true /\ asked c "(p q) > (p q)" CGreaterThan CFalse true = true /\
    exists e snap a b s c1 w1 s1 c2 w2 s2,
      Search.compare cfg0 snap (search cfg0 snap fuel0 fuel0) e a b s = Ok ((c1, w1), s1) /\
      Search.compare cfg0 snap (search cfg0 snap fuel0 fuel0) e b a s = Ok ((c2, w2), s2) /\ c2 = opposite c1.
Proof.
  destruct (session_witness _ _ questions_checked) as (rs & c & _ & R & K). unfold questions_check in K.
  apply andb_prop in K. destruct K as [K K5]. apply andb_prop in K. destruct K as [K K4].
  apply andb_prop in K. destruct K as [K K3]. apply andb_prop in K. destruct K as [K1 K2].
  exists c. repeat (split; [assumption|]).
  destruct (question c "c (w d)") as [[[[[t x] op] y] c1]|]; [|discriminate].
  exists (env_of c1), (c_snap c1), x, y, (state_of c1).
  destruct (Search.compare _ _ _ _ x y _) as [[[v w] s1]| | |]; try discriminate.
  destruct v; try discriminate.
  destruct (Search.compare _ _ _ _ y x _) as [[[v' w'] s2]| | |]; try discriminate.
  destruct v'; try discriminate.
  exists GreaterThan, w, s1, LessThan, w', s2. auto.
Qed.

(** ** What commands answer *)
(** An implication can make the built-in concept false reduce further: then neither [a -> a] nor
    [a > a] is answered false, and the command [false] is answered with something else. *)
Definition false_check (_ : list text) (c : ctx) : bool :=
  answers (txt "q") (execute cfg0 fuel0 (txt "a -> a") c) &&
  answers (txt "q") (execute cfg0 fuel0 (txt "a > a") c) &&
  answers (txt "q") (execute cfg0 fuel0 (txt "false") c).
Lemma false_checked :
  on_session (run_session cfg0 fuel0 (map txt ["let (z => (false -> q)) -> true"; "let z -> true"]) context0)
    false_check = true.
Proof. vm_compute. reflexivity. Qed.
Theorem C28_self_question_refuted :
  exists c c', reachable true c /\ execute cfg0 fuel0 (txt "a -> a") c = Ok (txt "q", c').
Proof.
  destruct (session_witness _ _ false_checked) as (rs & c & _ & R & K). unfold false_check in K.
  apply andb_prop in K. destruct K as [K K3]. apply andb_prop in K. destruct K as [K1 K2].
  apply answers_eq in K1. destruct K1 as (c' & K1). eauto.
Qed.
Print Assumptions C28_self_question_refuted.
Theorem C29_self_comparison_refuted :
  exists c c', reachable true c /\ execute cfg0 fuel0 (txt "a > a") c = Ok (txt "q", c').
Proof.
  destruct (session_witness _ _ false_checked) as (rs & c & _ & R & K). unfold false_check in K.
  apply andb_prop in K. destruct K as [K K3]. apply andb_prop in K. destruct K as [K1 K2].
  apply answers_eq in K2. destruct K2 as (c' & K2). eauto.
Qed.
Print Assumptions C29_self_comparison_refuted.
Theorem C16_inferred_reduction_of_a_built_in_refuted :
  exists c c', reachable true c /\ execute cfg0 fuel0 (txt "false") c = Ok (txt "q", c').
Proof.
  destruct (session_witness _ _ false_checked) as (rs & c & _ & R & K). unfold false_check in K.
  apply andb_prop in K. destruct K as [K K3]. apply answers_eq in K3. destruct K3 as (c' & K3). eauto.
Qed.
Print Assumptions C16_inferred_reduction_of_a_built_in_refuted.

(** A declared answer to a question comes first: [m -> n] is answered true although [m] is its own
    normal form and has no reduction. *)
Definition declared_check (_ : list text) (c : ctx) : bool :=
  answers (txt "true") (execute cfg0 fuel0 (txt "m -> n") c) &&
  answers (txt "m") (execute cfg0 fuel0 (txt "m") c).
Lemma declared_checked :
  on_session (run_session cfg0 fuel0 (map txt ["let (m -> n) -> true"]) context0) declared_check = true.
Proof. vm_compute. reflexivity. Qed.
Theorem C28_declared_answer_refuted :
  exists c c1 c2, reachable true c /\ execute cfg0 fuel0 (txt "m -> n") c = Ok (txt "true", c1) /\
    execute cfg0 fuel0 (txt "m") c = Ok (txt "m", c2).
Proof.
  destruct (session_witness _ _ declared_checked) as (rs & c & _ & R & K). unfold declared_check in K.
  apply andb_prop in K. destruct K as [K1 K2]. apply answers_eq in K1, K2. destruct K1 as (c1 & K1), K2 as (c2 & K2). eauto 6.
Qed.
Print Assumptions C28_declared_answer_refuted.

(** Both [a > b] and [b > a] can be answered true. *)
Definition both_check (_ : list text) (c : ctx) : bool :=
  answers (txt "true") (execute cfg0 fuel0 (txt "a > b") c) &&
  answers (txt "true") (execute cfg0 fuel0 (txt "b > a") c).
Lemma both_checked :
  on_session (run_session cfg0 fuel0 (map txt ["let (a > b) -> c"; "let (b > a) -> c"; "let c -> true"]) context0)
    both_check = true.
Proof. vm_compute. reflexivity. Qed.
Theorem C29_opposite_answers_refuted :
  exists c c1 c2, reachable true c /\ execute cfg0 fuel0 (txt "a > b") c = Ok (txt "true", c1) /\
    execute cfg0 fuel0 (txt "b > a") c = Ok (txt "true", c2).
Proof.
  destruct (session_witness _ _ both_checked) as (rs & c & _ & R & K). unfold both_check in K.
  apply andb_prop in K. destruct K as [K1 K2]. apply answers_eq in K1, K2. destruct K1 as (c1 & K1), K2 as (c2 & K2). eauto 6.
Qed.
Print Assumptions C29_opposite_answers_refuted.

(** ** C27 *)
(** Evaluation ends with something that reductions lead to and that does not reduce further. *)
Theorem C27_answers_are_reached_by_reductions cfg snap rf n e t why s t' why' s' :
  o_nf (search cfg snap rf n) e t why s = Ok ((t', why'), s') ->
  ends (reduces_to cfg snap rf e) t t' /\ irreducible cfg snap rf e t'.
Proof. exact (normal_form_ends cfg snap rf n e t why s t' why' s'). Qed.
Print Assumptions C27_answers_are_reached_by_reductions.
(** Evaluation follows a chain of declared reductions of any length to its end, when no implication is
    found that reduces a link and no reduction of a link is in the cache. *)
Theorem C27_declared_chains_are_followed_partial cfg snap rf e n t s w why r s' :
  declared_chain cfg snap rf e n t s w ->
  o_nf (search cfg snap rf n) e t why s = Ok (r, s') -> fst r = w.
Proof. intros D. exact (chain_answer cfg snap rf e n t s w D why r s'). Qed.
Print Assumptions C27_declared_chains_are_followed_partial.
Definition followed (c : ctx) (from : string) (links : nat) (to : string) : bool :=
  match read_tree cfg0 fuel0 (txt from) c with
  | Ok (Val t, c1) =>
    match follow cfg0 (c_snap c1) fuel0 (env_of c1) fuel0 t (state_of c1) links,
          o_nf (search cfg0 (c_snap c1) fuel0 fuel0) (env_of c1) t None (state_of c1) with
    | Some w, Ok _ => text_eqb (display w) (txt to)
    | _, _ => false
    end
  | _ => false
  end.
Lemma followed_checked :
  on_session (run_session cfg0 fuel0 (map txt ["let (a -> b)"; "let (b -> w)"]) context0)
    (fun _ c => followed c "a" 2 "w") = true.
Proof. vm_compute. reflexivity. Qed.
Example C27_applies :
  exists c t c1 w r s', reachable true c /\ read_tree cfg0 fuel0 (txt "a") c = Ok (Val t, c1) /\
    declared_chain cfg0 (c_snap c1) fuel0 (env_of c1) fuel0 t (state_of c1) w /\
    o_nf (search cfg0 (c_snap c1) fuel0 fuel0) (env_of c1) t None (state_of c1) = Ok (r, s') /\
    display w = txt "w".
Proof.
  destruct (session_witness _ _ followed_checked) as (rs & c & _ & R & K). unfold followed in K.
  destruct (read_tree _ _ _ _) as [[[t|] c1]| | |] eqn:T; try discriminate.
  destruct (follow _ _ _ _ _ _ _ _) as [w|] eqn:F; [|discriminate].
  destruct (o_nf _ _ _ _ _) as [[r s']| | |] eqn:N; try discriminate.
  exists c, t, c1, w, r, s'. split; [exact R|]. split; [exact T|]. split; [eapply follow_ok, F|]. split; [exact N|].
  destruct (text_eqb_spec (display w) (txt "w")); [assumption|discriminate].
Qed.

(** [x] was declared to reduce to [y], which has no reduction.  An implication answers [x] with
    something else. *)
Definition inferred_check (_ : list text) (c : ctx) : bool :=
  answers (txt "q") (execute cfg0 fuel0 (txt "x") c) && answers (txt "y") (execute cfg0 fuel0 (txt "y") c).
Lemma inferred_checked :
  on_session (run_session cfg0 fuel0 (map txt ["let (z => (x -> q)) -> true"; "let x -> y"; "let z -> true"]) context0)
    (fun rs c => all_silent rs && inferred_check rs c) = true.
Proof. vm_compute. reflexivity. Qed.
Theorem C27_declared_reduction_overruled_refuted :
  exists rs c c1 c2,
    run_session cfg0 fuel0 (map txt ["let (z => (x -> q)) -> true"; "let x -> y"; "let z -> true"]) context0 = Ok (rs, c) /\
    all_silent rs = true /\
    execute cfg0 fuel0 (txt "x") c = Ok (txt "q", c1) /\ execute cfg0 fuel0 (txt "y") c = Ok (txt "y", c2).
Proof.
  destruct (session_witness _ _ inferred_checked) as (rs & c & E & R & K). apply andb_prop in K. destruct K as [S K].
  unfold inferred_check in K. apply andb_prop in K. destruct K as [K1 K2].
  apply answers_eq in K1, K2. destruct K1 as (c1 & K1), K2 as (c2 & K2). exists rs, c, c1, c2. auto.
Qed.
Print Assumptions C27_declared_reduction_overruled_refuted.
