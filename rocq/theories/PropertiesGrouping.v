(** How lists of symbols are grouped: C09. *)
From Verif Require Import Start Snapshot Context MapFacts AstFacts RangeFacts History Sample Witness Quiet Grouping.
From Coq Require Import String List Bool PeanoNat Lia.
Import ListNotations.
Local Open Scope string_scope.

(** When a list of tokens that no precedence mentions is parsed in a debug build, it is parsed as
    [t1 (t2 (... tn))], unless a token is found to be left-associative; in every store, for every
    length and every hash order.
    Missing: lists of three or more tokens none of which has a concept (see the refutation), release
    builds, where a pair that is the quantifier would be turned into a leaf, and that reading the store
    on the way does not fail; no other error arises. *)
Theorem C09_groups_to_the_right_partial cfg fuel ts c r c' :
  fair cfg -> dbg cfg = true ->
  ts <> [] -> (le 3 (length ts) -> exists t, In t ts /\ t_concept t <> None) ->
  unrelated cfg c ts -> ~ left_associative cfg fuel c ts ->
  parse_list cfg fuel ts c = Ok (r, c') ->
  match r with Val u => right_grouped ts u | Fail e => store_error e end.
Proof.
  intros F D N K U L E. destruct (grouped cfg fuel ts c r c' F D N K U E) as [H|H]; [contradiction|exact H].
Qed.
Print Assumptions C09_groups_to_the_right_partial.

(** ** The hypotheses are met *)
Definition tokens (s : string) : CM (list tree) :=
  cbind (c_lex cfg0 fuel0 (txt s)) (fun ls => cbind (c_nest ls) (fun n => syntax_list_for_nested_syntax cfg0 fuel0 n)).
Definition has_concept (x : cid) (t : tree) : bool := match t_concept t with Some y => cid_eqb x y | None => false end.
Lemma has_concept_not x ts t : existsb (has_concept x) ts = false -> In t ts -> t_concept t <> Some x.
Proof.
  intros E I K. assert (existsb (has_concept x) ts = true); [|congruence]. apply existsb_exists. exists t. split; [exact I|].
  unfold has_concept. rewrite K. destruct (cid_eqb_spec x x); [reflexivity|contradiction].
Qed.
Definition unrelated_check (c : ctx) (ts : list tree) : bool :=
  match concrete_concept_id cfg0 (c_snap c) (c_delta c) CPrecedes with
  | Ok (Some p) =>
    match read_concept cfg0 (c_snap c) (c_delta c) p with
    | Ok m =>
      forallb (fun '(y, comp) =>
        negb (existsb (has_concept y) ts) &&
        match read_concept cfg0 (c_snap c) (c_delta c) comp with
        | Ok m' => forallb (fun '(x, _) => negb (existsb (has_concept x) ts)) (m_iter_hand_of cfg0 m' HRight)
        | _ => true
        end) (m_iter_hand_of cfg0 m HLeft)
    | _ => true
    end
  | _ => true
  end.
Lemma unrelated_checked c ts : unrelated_check c ts = true -> unrelated cfg0 c ts.
Proof.
  unfold unrelated_check. intros E p m P M. rewrite P, M in E. intros y comp I.
  apply (proj1 (forallb_forall _ _) E) in I. cbn beta iota in I. apply andb_prop in I. destruct I as [I J].
  split; [intros t T; apply (has_concept_not _ ts); [apply negb_true_iff, I|exact T]|].
  intros m' M' x w X t T. rewrite M' in J. apply (proj1 (forallb_forall _ _) J) in X. cbn beta iota in X.
  apply (has_concept_not _ ts); [apply negb_true_iff, X|exact T].
Qed.
Fixpoint none_left (ts : list tree) (c : ctx) : bool :=
  match ts with
  | [] => true
  | t :: ts =>
    match c_assoc cfg0 fuel0 t c with
    | Ok (Val ARight, c') => none_left ts c'
    | _ => false
    end
  end.
Lemma none_left_ok ts : forall c, none_left ts c = true -> ~ meets_left cfg0 fuel0 c ts.
Proof.
  induction ts as [|t ts IH]; intros c E M; inversion M as [t' ts' d d' A|t' ts' a d d' A B]; subst; cbn [none_left] in E; rewrite A in E.
  - discriminate E.
  - destruct a; [discriminate E|]. exact (IH _ E B).
Qed.
Definition not_left (ts : list tree) (c : ctx) : bool :=
  match lowest_precedence_info cfg0 fuel0 ts c with
  | Ok (Val info, c1) => none_left (ts_syntax info) c1
  | _ => true
  end.
Lemma not_left_ok ts c : not_left ts c = true -> ~ left_associative cfg0 fuel0 c ts.
Proof. unfold not_left. intros E (info & c1 & L & _ & M). rewrite L in E. exact (none_left_ok _ _ E M). Qed.
Definition grouping_check (n : nat) (x : outcome (zres (list tree) * ctx)) : bool :=
  match x with
  | Ok (Val ts, c) =>
    Nat.eqb (length ts) n && existsb (fun t => match t_concept t with Some _ => true | None => false end) ts &&
    unrelated_check c ts && not_left ts c &&
    match parse_list cfg0 fuel0 ts c with
    | Ok (Val _, _) => true
    | _ => false
    end
  | _ => false
  end.
(** Five tokens, one of them a bracketed group without a concept, in a store with declarations of its
    own; all of them are found to be right-associative. *)
Lemma grouping_checked :
  on_session (run_session cfg0 fuel0 (map txt ["let (c -> g)"]) context0)
    (fun _ c => grouping_check 5 (tokens "a b c (d e) f" c)) = true.
Proof. vm_compute. reflexivity. Qed.
Example C09_applies :
  exists c ts c1 u c2, reachable true c /\ tokens "a b c (d e) f" c = Ok (Val ts, c1) /\
    length ts = 5 /\ (exists t, In t ts /\ t_concept t <> None) /\ unrelated cfg0 c1 ts /\
    ~ left_associative cfg0 fuel0 c1 ts /\ parse_list cfg0 fuel0 ts c1 = Ok (Val u, c2) /\ right_grouped ts u.
Proof.
  destruct (session_witness _ _ grouping_checked) as (rs & c & _ & R & K). unfold grouping_check in K.
  destruct (tokens "a b c (d e) f" c) as [[[ts|] c1]| | |] eqn:T; try discriminate K.
  apply andb_prop in K. destruct K as [K K5]. apply andb_prop in K. destruct K as [K K4].
  apply andb_prop in K. destruct K as [K K3]. apply andb_prop in K. destruct K as [K1 K2].
  apply Nat.eqb_eq in K1. apply existsb_exists in K2. destruct K2 as (t & I & K2). apply unrelated_checked in K3.
  apply not_left_ok in K4. destruct (parse_list cfg0 fuel0 ts c1) as [[[u|] c2]| | |] eqn:P; try discriminate K5.
  assert (H : exists t, In t ts /\ t_concept t <> None).
  { exists t. split; [exact I|]. destruct (t_concept t); [discriminate|discriminate K2]. }
  exists c, ts, c1, u, c2. split; [exact R|]. split; [exact T|]. split; [exact K1|]. split; [exact H|].
  split; [exact K3|]. split; [exact K4|]. split; [exact P|].
  refine (C09_groups_to_the_right_partial cfg0 fuel0 ts c1 (Val u) c2 fair0 eq_refl _ (fun _ => H) K3 K4 P).
  intros ->. discriminate K1.
Qed.

(** ** The unrestricted statement *)
(** Three bracketed groups of fresh symbols carry no precedence or associativity information, and are
    not grouped at all. *)
Lemma groups_checked :
  answers (error_text AmbiguousExpression) (execute cfg0 fuel0 (txt "(a b) (c d) (e f)") context0) = true.
Proof. vm_compute. reflexivity. Qed.
Theorem C09_bracketed_groups_refuted :
  exists c c', reachable true c /\
    execute cfg0 fuel0 (txt "(a b) (c d) (e f)") c = Ok (error_text AmbiguousExpression, c').
Proof. exists context0. destruct (answers_eq _ _ groups_checked) as [c' E]. exists c'. split; [exact context0_reachable|exact E]. Qed.
Print Assumptions C09_bracketed_groups_refuted.
