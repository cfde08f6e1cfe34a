(** What the evaluator answers to the questions [x -> y] and [x > y]. *)
From Verif Require Import Snapshot Search Context StoreFacts AstFacts.
From Coq Require Import String List PeanoNat Lia.
Import ListNotations.
Local Open Scope zia_scope.

(** ** Specification *)
(** One or more steps of [red] lead from [l] to a tree with the same text and concept as [r]. *)
Inductive leads (red : tree -> tree -> Prop) : tree -> tree -> Prop :=
| LeadsLast l m r : red l m -> t_key m = t_key r -> leads red l r
| LeadsStep l m r : red l m -> leads red m r -> leads red l r.
(** The verdict on (y, x) that fits a verdict on (x, y). *)
Definition opposite (c : comparison) : comparison :=
  match c with
  | GreaterThan => LessThan
  | LessThan => GreaterThan
  | GreaterThanOrEqualTo => LessThanOrEqualTo
  | LessThanOrEqualTo => GreaterThanOrEqualTo
  | EqualTo => EqualTo
  | Incomparable => Incomparable
  end.
(** [x (op y)] *)
Definition is_question (t x op y : tree) : Prop :=
  t_concept t = None /\ exists r, t_exp t = Some (x, r) /\ t_exp r = Some (op, y).

Section Questions.
  Variable cfg : config.
  Variable snap : snapshot.
  Variable rf : nat.
  Notation ops n := (search cfg snap rf n).

  (** The evaluator of the environment [e] reduces [l] to [m] in some state of the search. *)
  Definition reduces_to (e : env) (l m : tree) : Prop :=
    exists n s why s', o_reduce (ops n) e l s = Ok (Some (m, why), s').
  Definition has_type (e : env) (t : tree) (cc : cct) : Prop :=
    exists id, t_concept t = Some id /\ concrete_concept_type cfg snap (e_delta e) id = Ok (Some cc).
  (** [t] is the tree that the evaluator shows for the built-in concept [cc]. *)
  Definition tree_of_type (e : env) (cc : cct) (t : tree) : Prop :=
    exists n id s s', concrete_concept_id cfg snap (e_delta e) cc = Ok (Some id) /\
      o_to_ast (ops n) e id s = Ok (t, s').
  Definition type_of (e : env) (t : tree) (ty : option cct) : Prop :=
    match t_concept t with
    | Some id => concrete_concept_type cfg snap (e_delta e) id = Ok ty
    | None => ty = None
    end.

  Lemma sb {A B} (m : SM A) (f : A -> SM B) s b s' :
    sbind m f s = Ok (b, s') -> exists a s1, m s = Ok (a, s1) /\ f a s1 = Ok (b, s').
  Proof. unfold sbind. intros E. apply obind_ok in E. destruct E as ([a s1] & E1 & E2). eauto. Qed.
  Lemma at_some {A B} (m : SM (option A)) (f : A -> SM (option B)) s b s' :
    and_then m f s = Ok (Some b, s') -> exists a s1, m s = Ok (Some a, s1) /\ f a s1 = Ok (Some b, s').
  Proof.
    unfold and_then. intros E. apply sb in E. destruct E as ([a|] & s1 & E1 & E2); [eauto|discriminate].
  Qed.
  Lemma type_step e t ty s s1 : concrete_type_of_ast cfg snap e t s = Ok (ty, s1) -> s1 = s /\ type_of e t ty.
  Proof.
    unfold concrete_type_of_ast, type_of, concrete_type, slift. destruct (t_concept t) as [id|].
    - intros E. apply obind_ok in E. destruct E as (x & E & [= -> ->]). auto.
    - intros [= <- <-]. auto.
  Qed.
  Lemma type_known e t cc s : has_type e t cc -> concrete_type_of_ast cfg snap e t s = Ok (Some cc, s).
  Proof.
    intros (id & A & B). unfold concrete_type_of_ast, concrete_type, slift. rewrite A, B. reflexivity.
  Qed.
  Lemma concrete_ast_some n e cc s t s' :
    concrete_ast cfg snap (ops n) e cc s = Ok (Some t, s') -> tree_of_type e cc t.
  Proof.
    unfold concrete_ast. intros E. apply at_some in E. destruct E as (id & s1 & E1 & E2).
    unfold concrete_id, slift in E1. apply obind_ok in E1. destruct E1 as (x & E1 & [= -> ->]).
    apply sb in E2. destruct E2 as (u & s2 & E2 & [= <- <-]). exists n, id, s1, s2. auto.
  Qed.

  (** ** Reductions *)
  Lemma evidence_leads n : forall e l r s why s',
    o_evidence (ops n) e l r s = Ok (Some why, s') -> leads (reduces_to e) l r.
  Proof.
    induction n as [|n IH]; intros e l r s why s' E; [discriminate|]. cbn [search step o_evidence] in E.
    unfold determine_evidence in E. apply at_some in E. destruct E as ([l' w] & s1 & E1 & E2).
    assert (R : reduces_to e l l') by (exists n, s, w, s1; exact E1).
    destruct (key_eqb_spec (t_key l') (t_key r)) as [K|K].
    - exact (LeadsLast _ l l' r R K).
    - apply at_some in E2. destruct E2 as (w' & s2 & E2 & _). eapply LeadsStep; [exact R|]. eapply IH, E2.
  Qed.
  Lemma truth_leads n e l r s b why s' :
    determine_reduction_truth (ops n) e l r s = Ok (Some (b, why), s') ->
    if b : bool then t_key l <> t_key r /\ leads (reduces_to e) l r
    else t_key l = t_key r \/ leads (reduces_to e) r l.
  Proof.
    unfold determine_reduction_truth. destruct (key_eqb_spec (t_key l) (t_key r)) as [K|K].
    - intros [= <- <- <-]. auto.
    - intros E. apply sb in E. destruct E as (lr & s1 & E1 & E). apply sb in E. destruct E as (rl & s2 & E2 & E).
      destruct lr as [w|], rl as [w'|]; try discriminate; injection E as <- <- <-.
      + split; [exact K|]. eapply evidence_leads, E1.
      + right. eapply evidence_leads, E2.
  Qed.
  Lemma arrow_answer n e l op r s t why s' :
    has_type e op CReduction ->
    reduce_by_expanded_right_branch cfg snap (ops n) e l op r s = Ok (Some (t, why), s') ->
    (tree_of_type e CTrue t /\ t_key l <> t_key r /\ leads (reduces_to e) l r) \/
    (tree_of_type e CFalse t /\ (t_key l = t_key r \/ leads (reduces_to e) r l)).
  Proof.
    intros T E. unfold reduce_by_expanded_right_branch in E. apply sb in E. destruct E as (ty & s1 & E1 & E).
    rewrite (type_known e op _ s T) in E1. injection E1 as <- <-.
    apply at_some in E. destruct E as ([b w] & s2 & E2 & E3).
    apply at_some in E3. destruct E3 as (x & s3 & E3 & [= <- <- <-]).
    apply truth_leads in E2. apply concrete_ast_some in E3. destruct b; auto.
  Qed.
  (** The tree [x -> x], when it has no concept of its own and its answer is not in the cache. *)
  Lemma arrow_self n e t x op y s r s' :
    is_question t x op y -> has_type e op CReduction -> t_key x = t_key y ->
    lookup_red (e_reds e) (t_key t) (s_red s) = None ->
    o_reduce (ops (S n)) e t s = Ok (r, s') ->
    (exists f, r = Some (f, RSyntaxCannotReduceToItself) /\ tree_of_type e CFalse f) \/
    concrete_concept_id cfg snap (e_delta e) CFalse = Ok None.
  Proof.
    intros (C & p & X & Y) T K L E. cbn [search step o_reduce] in E. unfold reduce in E.
    apply sb in E. destruct E as (ca & s1 & E1 & E). unfold cached_reduction in E1. rewrite L in E1. injection E1 as <- <-.
    rewrite C, X in E. apply sb in E. destruct E as (co & s1 & [= <- <-] & E).
    apply sb in E. destruct E as (rr & s2 & E2 & E). apply sb in E. destruct E as (u & s3 & _ & [= <- <-]).
    unfold or_else at 1 in E2. apply sb in E2. destruct E2 as (o & s1 & [= <- <-] & E2).
    cbn [opt_then] in E2. unfold reduce_pair, or_else at 1 in E2. apply sb in E2. destruct E2 as (o & s1 & E1 & E2).
    rewrite Y in E1. cbn [opt_then] in E1.
    destruct o as [[f w]|].
    - injection E2 as <- <-. left. exists f.
      unfold reduce_by_expanded_right_branch in E1. apply sb in E1. destruct E1 as (ty & s4 & E1 & E).
      rewrite (type_known e op _ s T) in E1. injection E1 as <- <-.
      apply at_some in E. destruct E as ([b w'] & s5 & E3 & E4).
      apply at_some in E4. destruct E4 as (f' & s6 & E4 & [= <- <- <-]).
      unfold determine_reduction_truth in E3. destruct (key_eqb_spec (t_key x) (t_key y)) as [_|N]; [|contradiction].
      injection E3 as <- <- <-. apply concrete_ast_some in E4. auto.
    - right. unfold reduce_by_expanded_right_branch in E1. apply sb in E1. destruct E1 as (ty & s4 & E1 & E).
      rewrite (type_known e op _ s T) in E1. injection E1 as <- <-.
      unfold determine_reduction_truth in E. destruct (key_eqb_spec (t_key x) (t_key y)) as [_|N]; [|contradiction].
      unfold and_then at 1 in E. apply sb in E. destruct E as (o & s4 & [= <- <-] & E).
      unfold and_then at 1, concrete_ast in E. apply sb in E. destruct E as (o & s4 & E3 & E).
      destruct o; [discriminate|]. unfold and_then in E3. apply sb in E3. destruct E3 as (o & s5 & E3 & E4).
      destruct o as [id|]; [apply sb in E4; destruct E4 as (? & ? & _ & E4); discriminate|].
      unfold concrete_id, slift in E3. apply obind_ok in E3. destruct E3 as (o & E3 & [= -> _]). exact E3.
  Qed.

  (** ** Comparisons *)
  Lemma compare_same n e a b s : t_key a = t_key b ->
    Search.compare cfg snap (ops n) e a b s = Ok ((EqualTo, CRSameSyntax), s).
  Proof.
    intros K. unfold Search.compare. destruct (key_eqb_spec (t_key a) (t_key b)); [reflexivity|contradiction].
  Qed.
  (** The verdict that the types of the two evaluated questions amount to. *)
  Definition verdict (ty tyr : option cct) : option comparison :=
    match ty, tyr with
    | Some CFalse, Some CFalse => Some EqualTo
    | Some CTrue, Some CTrue => None
    | Some CTrue, _ => Some GreaterThan
    | _, Some CTrue => Some LessThan
    | Some CFalse, _ => Some LessThanOrEqualTo
    | _, Some CFalse => Some GreaterThanOrEqualTo
    | _, _ => Some Incomparable
    end.
  Lemma verdict_opposite ty tyr c : verdict ty tyr = Some c -> verdict tyr ty = Some (opposite c).
  Proof. destruct ty as [[]|], tyr as [[]|]; intros [= <-]; reflexivity. Qed.
  (** One of the two questions of a comparison: its tree was evaluated, or its evaluation was already
      under way and the cache was asked. *)
  Definition answered (e : env) (q : tree) (ty : option cct) : Prop :=
    (exists n e' s t why s', e_delta e' = e_delta e /\
       o_nf (ops n) e' q None s = Ok ((t, why), s') /\ type_of e t ty) \/
    (smem key_eqb (t_key q) (e_eval e) = true /\
       (ty = None \/ exists t why reds, lookup_red (e_reds e) (t_key q) reds = Some (Some (t, why)) /\ type_of e t ty)).
  Lemma compare_one_answered n e h q s ty why s' :
    compare_one cfg snap (ops n) e h q s = Ok ((ty, why), s') -> answered e q ty.
  Proof.
    unfold compare_one. destruct (smem key_eqb (t_key q) (e_eval e)) eqn:M; intros E.
    - right. split; [exact M|]. apply sb in E. destruct E as (o & s1 & E1 & E). injection E1 as <- <-.
      destruct (lookup_red _ _ _) as [[[t w]|]|] eqn:L.
      + apply sb in E. destruct E as (ty' & s2 & E2 & [= <- _ _]). right. exists t, w, (s_red s). split; [exact L|].
        apply type_step in E2. apply E2.
      + injection E as <- _ _. auto.
      + injection E as <- _ _. auto.
    - left. apply sb in E. destruct E as (e' & s1 & E1 & E). apply sb in E. destruct E as ([t w] & s2 & E2 & E).
      apply sb in E. destruct E as (ty' & s3 & E3 & [= <- _ _]). apply type_step in E3.
      exists n, (with_evaluating e' (t_key q)), s1, t, w, s2. split; [|split; [exact E2|apply E3]].
      unfold spawn in E1. apply sb in E1. destruct E1 as (sy & s4 & _ & [= <- _]). reflexivity.
  Qed.
  Definition joined (e : env) (l r t : tree) : Prop :=
    exists n s s', combine_ast cfg snap (ops n) e l r s = Ok (t, s').
  (** [q] is the tree of the question [a > b]. *)
  Definition asks (e : env) (a b q : tree) : Prop :=
    exists g gb, tree_of_type e CGreaterThan g /\ joined e g b gb /\ joined e a gb q.
  Lemma compare_verdict n e a b s c why s' :
    t_key a <> t_key b -> Search.compare cfg snap (ops n) e a b s = Ok ((c, why), s') ->
    (concrete_concept_id cfg snap (e_delta e) CGreaterThan = Ok None /\ c = Incomparable) \/
    exists q qr ty tyr, asks e a b q /\ asks e b a qr /\ answered e q ty /\ answered e qr tyr /\ verdict ty tyr = Some c.
  Proof.
    intros K E. unfold Search.compare in E. destruct (key_eqb_spec (t_key a) (t_key b)); [contradiction|].
    apply sb in E. destruct E as (g & s1 & E1 & E). unfold concrete_id, slift in E1.
    apply obind_ok in E1. destruct E1 as (g' & E1 & [= -> ->]). destruct g as [g|].
    2:{ injection E as <- _ _. auto. }
    right. apply sb in E. destruct E as (gt & s2 & E2 & E).
    assert (G : tree_of_type e CGreaterThan gt) by (exists n, g, s1, s2; auto).
    apply sb in E. destruct E as (gb & s3 & E3 & E). apply sb in E. destruct E as (agb & s4 & E4 & E).
    apply sb in E. destruct E as (ga & s5 & E5 & E). apply sb in E. destruct E as (bga & s6 & E6 & E).
    apply sb in E. destruct E as (h & s7 & _ & E).
    apply sb in E. destruct E as ([ty r] & s8 & E8 & E). apply sb in E. destruct E as ([tyr rr] & s9 & E9 & E).
    apply sb in E. destruct E as (c' & s10 & E10 & E). apply sb in E. destruct E as (cr & s11 & _ & [= <- _ _]).
    exists agb, bga, ty, tyr.
    split; [exists gt, gb; split; [exact G|split; [exists n, s2, s3; exact E3|exists n, s3, s4; exact E4]]|].
    split; [exists gt, ga; split; [exact G|split; [exists n, s4, s5; exact E5|exists n, s5, s6; exact E6]]|].
    split; [eapply compare_one_answered, E8|]. split; [eapply compare_one_answered, E9|].
    destruct ty as [[]|], tyr as [[]|]; cbn in E10; try discriminate E10; injection E10 as <- _; reflexivity.
  Qed.
  (** The tree [x > y]: answered true only for [GreaterThan], false only for a verdict that excludes it. *)
  Lemma greater_answer n e l op r s t why s' :
    has_type e op CGreaterThan ->
    reduce_by_expanded_right_branch cfg snap (ops n) e l op r s = Ok (Some (t, why), s') ->
    exists c cr s1, Search.compare cfg snap (ops n) e l r s = Ok ((c, cr), s1) /\ why = RComparison cr /\
      ((c = GreaterThan /\ tree_of_type e CTrue t) \/
       ((c = EqualTo \/ c = LessThan \/ c = LessThanOrEqualTo) /\ tree_of_type e CFalse t)).
  Proof.
    intros T E. unfold reduce_by_expanded_right_branch in E. apply sb in E. destruct E as (ty & s1 & E1 & E).
    rewrite (type_known e op _ s T) in E1. injection E1 as <- <-.
    apply sb in E. destruct E as ([c cr] & s2 & E2 & E). apply at_some in E. destruct E as (x & s3 & E3 & [= <- <- <-]).
    exists c, cr, s2. split; [exact E2|]. split; [reflexivity|].
    destruct c; try discriminate E3; apply concrete_ast_some in E3; auto 6.
  Qed.
  Lemma greater_self n e t x op y s r s' :
    is_question t x op y -> has_type e op CGreaterThan -> t_key x = t_key y ->
    lookup_red (e_reds e) (t_key t) (s_red s) = None ->
    o_reduce (ops (S n)) e t s = Ok (r, s') ->
    (exists f, r = Some (f, RComparison CRSameSyntax) /\ tree_of_type e CFalse f) \/
    concrete_concept_id cfg snap (e_delta e) CFalse = Ok None.
  Proof.
    intros (C & p & X & Y) T K L E. cbn [search step o_reduce] in E. unfold reduce in E.
    apply sb in E. destruct E as (ca & s1 & E1 & E). unfold cached_reduction in E1. rewrite L in E1. injection E1 as <- <-.
    rewrite C, X in E. apply sb in E. destruct E as (co & s1 & [= <- <-] & E).
    apply sb in E. destruct E as (rr & s2 & E2 & E). apply sb in E. destruct E as (u & s3 & _ & [= <- <-]).
    unfold or_else at 1 in E2. apply sb in E2. destruct E2 as (o & s1 & [= <- <-] & E2).
    cbn [opt_then] in E2. unfold reduce_pair, or_else at 1 in E2. apply sb in E2. destruct E2 as (o & s1 & E1 & E2).
    rewrite Y in E1. cbn [opt_then] in E1. unfold reduce_by_expanded_right_branch in E1.
    apply sb in E1. destruct E1 as (ty & s4 & E1 & E). rewrite (type_known e op _ s T) in E1. injection E1 as <- <-.
    apply sb in E. destruct E as (cc & s4 & E1 & E). rewrite (compare_same n e x y s K) in E1. injection E1 as <- <-.
    unfold and_then at 1 in E. apply sb in E. destruct E as (f & s5 & E1 & E). destruct f as [f|].
    - injection E as <- <-. injection E2 as <- <-. left. exists f. apply concrete_ast_some in E1. auto.
    - right. unfold concrete_ast, and_then in E1. apply sb in E1. destruct E1 as (o' & s6 & E3 & E4).
      destruct o' as [id|]; [apply sb in E4; destruct E4 as (? & ? & _ & E4); discriminate|].
      unfold concrete_id, slift in E3. apply obind_ok in E3. destruct E3 as (o' & E3 & [= -> _]). exact E3.
  Qed.
End Questions.
