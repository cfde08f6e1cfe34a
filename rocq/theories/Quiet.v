(** Which changes a command records: looking things up records none, reading the text of a
    command only records new concepts, and evaluation records changes only when its answer
    is empty or an error. *)
From Verif Require Import Snapshot Context MapFacts StoreFacts RangeFacts Sim.
From Coq Require Import List String.
Import ListNotations.
Local Open Scope zia_scope.

(** ** Errors the evaluator does not recover from *)
Definition tame_error (e : zia_error) : Prop := e <> CannotReduceFurther /\ e <> UnusedSymbol.
(** The errors of reading the store. *)
Definition store_error (e : zia_error) : Prop :=
  e = BadComposition \/ e = SettingCompositionOfConcrete \/ e = InfiniteComposition.
Lemma store_error_tame e : store_error e -> tame_error e.
Proof. intros [->|[->| ->]]; split; discriminate. Qed.
Definition plain {A} (o : outcome A) : Prop := forall e, o = Err e -> store_error e.
Lemma plain_ok {A} (a : A) : plain (Ok a). Proof. intros e; discriminate. Qed.
Lemma plain_panic {A} s : plain (Panic s : outcome A). Proof. intros e; discriminate. Qed.
Lemma plain_fuel {A} : plain (OutOfFuel : outcome A). Proof. intros e; discriminate. Qed.
Lemma plain_err {A} e : store_error e -> plain (Err e : outcome A).
Proof. intros T x [= <-]. exact T. Qed.
Lemma plain_bind {A B} (o : outcome A) (f : A -> outcome B) :
  plain o -> (forall a, plain (f a)) -> plain (obind o f).
Proof. intros H K e E. destruct o; cbn in E; try discriminate; [exact (K _ _ E)|apply H; congruence]. Qed.
Lemma plain_unwrap {A} (o : option A) s : plain (unwrap o s).
Proof. destruct o; intros x; discriminate. Qed.
Lemma plain_dassert b x s : plain (dassert b x s).
Proof. unfold dassert. destruct b, x; intros e; discriminate. Qed.
Lemma plain_unwrap_res {A} (o : outcome A) s : plain (unwrap_res o s).
Proof. destruct o; intros x; discriminate. Qed.
Lemma plain_omap {A B} (f : A -> B) o : plain o -> plain (omap f o).
Proof. intros H. apply plain_bind; [exact H|]. intros a. apply plain_ok. Qed.

Ltac pl1 :=
  match goal with
  | |- plain (Ok _) => apply plain_ok
  | |- plain (Panic _) => apply plain_panic
  | |- plain OutOfFuel => apply plain_fuel
  | |- plain (Err _) => apply plain_err; unfold store_error; tauto
  | |- plain (obind _ _) => apply plain_bind; [|intros ?]
  | |- plain (omap _ _) => apply plain_omap
  | |- plain (unwrap _ _) => apply plain_unwrap
  | |- plain (dassert _ _ _) => apply plain_dassert
  | |- plain (unwrap_res _ _) => apply plain_unwrap_res
  | H : forall _, plain _ |- plain _ => apply H
  | H : forall _ _, plain _ |- plain _ => apply H
  | H : forall _ _ _, plain _ |- plain _ => apply H
  | |- plain (match ?x with _ => _ end) => destruct x
  | |- plain (let _ := _ in _) => cbv zeta
  end.
Ltac pl := repeat pl1; auto.

Section Plain.
  Variable cfg : config.
  Lemma plain_change m ch : plain (m_change_reduction cfg m ch).
  Proof. unfold m_change_reduction, change_reduction. pl. Qed.
  Lemma plain_indirect m i : plain (m_apply_indirect cfg m i).
  Proof.
    unfold m_apply_indirect. pl;
      unfold apply_indirect, insert_into; pl.
  Qed.
  Variable snap : snapshot.
  Variable d : delta.
  Lemma plain_read_step id m cd : plain (read_step cfg id m cd).
  Proof. unfold read_step. pl; try apply plain_change; apply plain_indirect. Qed.
  Lemma plain_read_steps id cds : forall m, plain (read_steps cfg id m cds).
  Proof. induction cds as [|cd cds IH]; intros m; cbn [read_steps]; pl. apply plain_read_step. Qed.
  Lemma plain_maybe_read id : plain (maybe_read_concept cfg snap d id).
  Proof. unfold maybe_read_concept. pl. apply plain_read_steps. Qed.
  Lemma plain_read id : plain (read_concept cfg snap d id).
  Proof. unfold read_concept. pl. apply plain_maybe_read. Qed.
  Lemma plain_type id : plain (concrete_concept_type cfg snap d id).
  Proof. unfold concrete_concept_type. pl. apply plain_read. Qed.
  Lemma plain_scan_deltas id cds : forall acc, plain (concrete_scan_deltas cfg id acc cds).
  Proof. induction cds as [|[[]|] cds IH]; intros acc; cbn [concrete_scan_deltas]; pl. Qed.
  Lemma plain_scan cc es : forall acc, plain (concrete_scan cfg snap d cc acc es).
  Proof.
    induction es as [|[id cds] es IH]; intros acc; cbn [concrete_scan]; pl.
    - unfold maybe_concrete_concept_type. pl. apply plain_maybe_read.
    - apply plain_scan_deltas.
  Qed.
  Lemma plain_concrete_id cc : plain (concrete_concept_id cfg snap d cc).
  Proof. unfold concrete_concept_id. pl. apply plain_scan. Qed.
  Lemma plain_layers_string b ls s : plain (layers_string b ls s).
  Proof.
    induction ls as [|l ls IH]; cbn [layers_string]; pl. unfold combine_change. pl.
  Qed.
  Lemma plain_delta_string b s : plain (delta_string b d s).
  Proof. apply plain_layers_string. Qed.
  Lemma plain_string_concept s : plain (get_string_concept cfg snap d s).
  Proof. unfold get_string_concept. pl. apply plain_delta_string. Qed.
  Lemma plain_labellee_loop n : forall cs, plain (labellee_loop cfg snap d n cs).
  Proof.
    induction n as [|n IH]; intros [|c cs]; cbn [labellee_loop]; pl; first [apply plain_read|apply plain_type].
  Qed.
  Lemma plain_from_label n s : plain (concept_from_label cfg snap d n s).
  Proof.
    unfold concept_from_label, get_labellee. pl; first [apply plain_string_concept|apply plain_read|apply plain_labellee_loop].
  Qed.
  Lemma plain_normal_form n : forall c, plain (get_normal_form cfg snap d n c).
  Proof. induction n as [|n IH]; intros c; cbn [get_normal_form]; pl. apply plain_read. Qed.
  Lemma plain_concept_of_label c : plain (get_concept_of_label cfg snap d c).
  Proof. unfold get_concept_of_label. pl; first [apply plain_concrete_id|apply plain_read]. Qed.
  Lemma plain_reduction_of_composition n : forall c, plain (get_reduction_of_composition cfg snap d n c).
  Proof. induction n as [|n IH]; intros c; cbn [get_reduction_of_composition]; pl; apply plain_read. Qed.
  Lemma plain_disconnected c : plain (is_disconnected cfg snap d c).
  Proof.
    unfold is_disconnected, righthand_of_without_label_is_empty. pl; first [apply plain_concrete_id|apply plain_read].
  Qed.
  Lemma plain_contains n : forall o i, plain (contains cfg snap d n o i).
  Proof. induction n as [|n IH]; intros o i; cbn [contains]; pl; apply plain_read. Qed.
  Lemma plain_check n : forall o i, plain (check_reductions cfg snap d n o i).
  Proof.
    induction n as [|n IH]; intros o i; cbn [check_reductions]; pl; first [apply plain_read|apply plain_contains].
  Qed.
  Lemma plain_compose_delta m l r : plain (compose_delta cfg m l r).
  Proof. unfold compose_delta, m_maybe_composition. pl. Qed.
  Lemma plain_bind_to_syntax t c : plain (bind_concept_to_syntax cfg snap d t c).
  Proof. unfold bind_concept_to_syntax, bind_quantifier. pl. apply plain_type. Qed.
End Plain.

(** ** Parts of a command *)
(** Records no change. *)
Definition still {A} (m : CM A) : Prop :=
  forall c r c', m c = Ok (r, c') -> pinned c' = pinned c /\ c_delta c' = c_delta c.
(** Fails only in ways that end the command. *)
Definition tame {A} (m : CM A) : Prop :=
  forall c r c', m c = Ok (r, c') -> pinned c' = pinned c /\ match r with Fail e => tame_error e | _ => True end.
(** Records no change before failing in a way that does not end the command, and none at
    all while the pending changes are shared. *)
Definition guarded {A} (m : CM A) : Prop :=
  forall c r c', m c = Ok (r, c') -> pinned c' = pinned c /\
    (c_delta c' = c_delta c \/ (pinned c = false /\ match r with Fail e => tame_error e | _ => True end)).

Lemma still_ret {A} (a : A) : still (cret a).
Proof. intros c r c' [= <- <-]. auto. Qed.
Lemma still_fail {A} e : still (cfail e : CM A).
Proof. intros c r c' [= <- <-]. auto. Qed.
Lemma still_lift {A} (f : ctx -> outcome A) : still (clift f).
Proof. intros c r c' E. apply lift_back in E. destruct E as [-> _]. auto. Qed.
Lemma still_search {A} (f : ctx -> env -> SM A) : still (fun c => with_search (f c) c).
Proof. intros c r c' E. unfold with_search in E. destruct (f c _ _) as [[a s]| | |]; try discriminate; injection E as <- <-; auto. Qed.
Lemma still_search' {A} (f : env -> SM A) : still (with_search f).
Proof. apply (still_search (fun _ => f)). Qed.
Lemma still_bind {A B} (m : CM A) (f : A -> CM B) : still m -> (forall a, still (f a)) -> still (cbind m f).
Proof.
  intros H K c r c' E. apply bind_back in E. destruct E as (x & c1 & E1 & E2). apply H in E1. destruct x as [a|e].
  - apply K in E2. destruct E1, E2. split; congruence.
  - destruct E2 as [_ ->]. exact E1.
Qed.
Lemma still_need : still need_delta.
Proof. intros c r c' E. unfold need_delta in E. destruct (pinned c) eqn:P; injection E as <- <-; auto. Qed.
Lemma still_fuel {A} : still (fun _ => OutOfFuel : outcome (zres A * ctx)).
Proof. intros c r c'. discriminate. Qed.

Lemma tame_ret {A} (a : A) : tame (cret a).
Proof. intros c r c' [= <- <-]. auto. Qed.
Lemma tame_fail {A} e : tame_error e -> tame (cfail e : CM A).
Proof. intros T c r c' [= <- <-]. auto. Qed.
Lemma tame_lift {A} (f : ctx -> outcome A) : (forall c, plain (f c)) -> tame (clift f).
Proof.
  intros H c r c' E. unfold clift in E. specialize (H c). destruct (f c); try discriminate; injection E as <- <-;
    auto using store_error_tame.
Qed.
Lemma tame_bind {A B} (m : CM A) (f : A -> CM B) : tame m -> (forall a, tame (f a)) -> tame (cbind m f).
Proof.
  intros H K c r c' E. apply bind_back in E. destruct E as (x & c1 & E1 & E2). apply H in E1. destruct x as [a|e].
  - apply K in E2. destruct E1, E2. split; [congruence|assumption].
  - destruct E2 as [-> ->]. exact E1.
Qed.
Lemma tame_update d : tame (update d).
Proof.
  intros c r c' E. unfold update in E. apply obind_ok in E. destruct E as ([id d'] & _ & E). injection E as <- <-. auto.
Qed.
Lemma guarded_still {A} (m : CM A) : still m -> guarded m.
Proof. intros H c r c' E. apply H in E. tauto. Qed.
Lemma guarded_bind {A B} (m : CM A) (f : A -> CM B) : still m -> (forall a, guarded (f a)) -> guarded (cbind m f).
Proof.
  intros H K c r c' E. apply bind_back in E. destruct E as (x & c1 & E1 & E2). apply H in E1. destruct E1 as [P1 D1].
  destruct x as [a|e].
  - apply K in E2. destruct E2 as [P2 D2]. split; [congruence|]. rewrite <- P1, <- D1. exact D2.
  - destruct E2 as [-> ->]. auto.
Qed.
Lemma guarded_need {A} (m : CM A) : tame m -> guarded (cbind need_delta (fun _ => m)).
Proof.
  intros H c r c' E. apply bind_back in E. destruct E as (x & c1 & E1 & E2). unfold need_delta in E1.
  destruct (pinned c) eqn:P; injection E1 as <- <-.
  - destruct E2 as [_ ->]. auto.
  - apply H in E2. destruct E2 as [P2 T]. split; [congruence|]. right. auto.
Qed.

Section Parts.
  Variable cfg : config.
  Variable fuel : nat.

  Lemma still_read id : still (c_read cfg id). Proof. apply still_lift. Qed.
  Lemma tame_read id : tame (c_read cfg id). Proof. apply tame_lift. intros c. apply plain_read. Qed.
  Lemma tame_concrete_id cc : tame (c_concrete_id cfg cc).
  Proof. apply tame_lift. intros c. apply plain_concrete_id. Qed.
  Lemma still_type_of t : still (c_concrete_type_of cfg t).
  Proof. unfold c_concrete_type_of. destruct (t_concept t); [apply still_lift|apply still_ret]. Qed.

  Ltac tm1 :=
    match goal with
    | |- tame (cret _) => apply tame_ret
    | |- tame (cfail _) => apply tame_fail; split; discriminate
    | |- tame (cbind _ _) => apply tame_bind; [|intros ?]
    | |- tame (update _) => apply tame_update
    | |- tame (c_read _ _) => apply tame_read
    | |- tame (c_concrete_id _ _) => apply tame_concrete_id
    | |- tame (clift _) => apply tame_lift; intros ?
    | |- plain (unwrap _ _) => apply plain_unwrap
    | |- plain (dassert _ _ _) => apply plain_dassert
    | |- plain (delta_string _ _ _) => apply plain_delta_string
    | |- plain (get_normal_form _ _ _ _ _) => apply plain_normal_form
    | |- plain (get_concept_of_label _ _ _ _) => apply plain_concept_of_label
    | |- plain (get_reduction_of_composition _ _ _ _ _) => apply plain_reduction_of_composition
    | |- plain (concept_from_label _ _ _ _ _) => apply plain_from_label
    | |- plain (contains _ _ _ _ _ _) => apply plain_contains
    | |- plain (check_reductions _ _ _ _ _ _) => apply plain_check
    | |- plain (compose_delta _ _ _ _) => apply plain_compose_delta
    | |- plain (is_disconnected _ _ _ _) => apply plain_disconnected
    | |- plain (bind_concept_to_syntax _ _ _ _ _) => apply plain_bind_to_syntax
    | |- tame (match ?x with _ => _ end) => destruct x
    end.
  Ltac tm := repeat tm1; auto.

  Lemma tame_new_labelled s cc l : tame (new_labelled_concept cfg s cc l).
  Proof. unfold new_labelled_concept. tm. Qed.
  Lemma tame_delete c s : tame (delete_reduction cfg c s).
  Proof. unfold delete_reduction. tm. Qed.
  Lemma tame_update_reduction c s r : tame (update_reduction cfg fuel c s r).
  Proof. unfold update_reduction. tm. Qed.
  Lemma tame_find_or_insert l r : tame (find_or_insert_composition cfg l r).
  Proof. unfold find_or_insert_composition. tm. Qed.
  Lemma tame_label c s n : tame (label cfg fuel c s n).
  Proof. unfold label. tm; first [apply tame_find_or_insert|apply tame_update_reduction]. Qed.
  Lemma tame_unlabel c s : tame (unlabel cfg c s).
  Proof. unfold unlabel. tm. apply tame_delete. Qed.
  Lemma tame_relabel c s n : tame (relabel cfg fuel c s n).
  Proof. unfold relabel. tm; [apply tame_unlabel|apply tame_label]. Qed.
  Lemma tame_concept_from_ast t : tame (concept_from_ast cfg fuel t).
  Proof.
    induction t as [s c k|s c l IHl r IHr fv bv]; cbn [concept_from_ast];
      tm; first [apply tame_new_labelled|apply tame_find_or_insert|apply tame_label].
  Qed.
  Lemma tame_insert_composition c l r : tame (insert_composition cfg fuel c l r).
  Proof. unfold insert_composition. tm. Qed.
  Lemma tame_redefine c l r : tame (redefine cfg fuel c l r).
  Proof. unfold redefine. tm; first [apply tame_concept_from_ast|apply tame_insert_composition]. Qed.
  Lemma tame_redefine_composition c l r a b : tame (redefine_composition cfg fuel c l r a b).
  Proof. unfold redefine_composition. tm; first [apply tame_relabel|apply tame_redefine]. Qed.
  Lemma tame_define_new s l r : tame (define_new_syntax cfg fuel s l r).
  Proof. unfold define_new_syntax. tm. apply tame_concept_from_ast. Qed.
  Lemma tame_remove_string s : tame (remove_string cfg s).
  Proof. unfold remove_string, blindly_remove_concept. tm. Qed.
  Lemma tame_remove_concept c : tame (remove_concept cfg c).
  Proof. unfold remove_concept, blindly_remove_concept. tm. apply tame_remove_string. Qed.
  Lemma tame_try_delete c s : tame (try_delete_concept cfg c s).
  Proof. unfold try_delete_concept. tm; first [apply tame_unlabel|apply tame_remove_concept]. Qed.

  Lemma still_search_ops {A} (f : ctx -> env -> SM A) : still (fun c => with_search (f c) c).
  Proof. apply still_search. Qed.
  Lemma still_reduce t : still (c_reduce cfg fuel t).
  Proof. exact (still_search (fun c e => o_reduce (ops_of cfg fuel c) e t)). Qed.
  Lemma still_inferred t : still (c_inferred cfg fuel t).
  Proof. exact (still_search (fun c e => find_examples_of_inferred_reduction cfg (c_snap c) fuel (ops_of cfg fuel c) e t)). Qed.
  Lemma still_contract l r : still (c_contract cfg fuel l r).
  Proof. exact (still_search (fun c e => contract_pair cfg (c_snap c) fuel (ops_of cfg fuel c) e l r)). Qed.
  Lemma still_normal_form t : still (c_normal_form cfg fuel t).
  Proof. exact (still_search (fun c e => smap fst (o_nf (ops_of cfg fuel c) e t None))). Qed.
  Lemma still_expand t : still (c_expand cfg fuel t).
  Proof. exact (still_search (fun c e => o_expand (ops_of cfg fuel c) e t)). Qed.
  Lemma still_to_ast id : still (c_to_ast cfg fuel id).
  Proof. exact (still_search (fun c e => o_to_ast (ops_of cfg fuel c) e id)). Qed.
  Lemma still_combine l r : still (c_combine cfg fuel l r).
  Proof. exact (still_search (fun c e => combine_ast cfg (c_snap c) (ops_of cfg fuel c) e l r)). Qed.
  Lemma still_assoc t : still (c_assoc cfg fuel t).
  Proof. exact (still_search (fun c e => o_assoc (ops_of cfg fuel c) e t)). Qed.
  Lemma still_concrete_ast cc : still (c_concrete_ast cfg fuel cc).
  Proof. exact (still_search (fun c e => concrete_ast cfg (c_snap c) (ops_of cfg fuel c) e cc)). Qed.

  Lemma guarded_removing t : guarded (try_removing_reduction cfg t).
  Proof.
    unfold try_removing_reduction. apply guarded_need.
    destruct (t_concept t); [apply tame_delete|apply tame_fail; split; discriminate].
  Qed.
  Lemma guarded_execute_reduction t nf : guarded (execute_reduction cfg fuel t nf).
  Proof.
    unfold execute_reduction.
    destruct (t_contains nf t); [apply guarded_still, still_fail|].
    destruct (key_eqb (t_key t) (t_key nf)); [apply guarded_removing|].
    apply guarded_bind; [apply still_reduce|]. intros x.
    apply guarded_bind; [destruct x; [apply still_ret|apply still_inferred]|]. intros [[y z]|].
    - apply guarded_still, still_fail.
    - apply guarded_need. apply tame_bind; [apply tame_concept_from_ast|intros a].
      apply tame_bind; [apply tame_concept_from_ast|intros b]. apply tame_update_reduction.
  Qed.
  Lemma guarded_define n o : guarded (define cfg fuel n o).
  Proof.
    unfold define.
    repeat match goal with
    | |- guarded (cfail _) => apply guarded_still, still_fail
    | |- guarded (cbind need_delta _) => apply guarded_need
    | |- guarded (cbind _ _) =>
        apply guarded_bind; [first [apply still_read|apply still_to_ast|apply still_lift]|intros ?]
    | |- tame (relabel _ _ _ _ _) => apply tame_relabel
    | |- tame (label _ _ _ _ _) => apply tame_label
    | |- tame (define_new_syntax _ _ _ _ _) => apply tame_define_new
    | |- tame (redefine_composition _ _ _ _ _ _ _) => apply tame_redefine_composition
    | |- tame (redefine _ _ _ _ _) => apply tame_redefine
    | |- tame (try_delete_concept _ _ _) => apply tame_try_delete
    | |- tame (unlabel _ _ _) => apply tame_unlabel
    | |- tame (cbind _ _) => apply tame_bind; [|intros ?]
    | |- guarded (match ?x with _ => _ end) => destruct x
    | |- tame (match ?x with _ => _ end) => destruct x
    end.
  Qed.
  Lemma guarded_execute_composition n o : guarded (execute_composition cfg fuel n o).
  Proof. unfold execute_composition. destruct (t_contains o n); [apply guarded_still, still_fail|apply guarded_define]. Qed.
  Lemma guarded_match_pair n : forall l rl rr, guarded (match_righthand_pair cfg fuel n l rl rr).
  Proof.
    induction n as [|n IH]; intros l rl rr; cbn [match_righthand_pair]; [apply guarded_still, still_fuel|].
    destruct (t_concept rl) as [c|]; [|apply guarded_still, still_fail].
    apply guarded_bind; [apply still_lift|]. intros ty.
    assert (D : guarded (cbind (c_read cfg c) (fun m => match m_reduction m with
                   | None => cfail CannotReduceFurther
                   | Some r => cbind (c_to_ast cfg fuel r) (fun t => match_righthand_pair cfg fuel n l t rr) end))).
    { apply guarded_bind; [apply still_read|]. intros m. destruct (m_reduction m).
      - apply guarded_bind; [apply still_to_ast|]. intros t. apply IH.
      - apply guarded_still, still_fail. }
    destruct ty as [[]|]; first [exact D|apply guarded_execute_composition|apply guarded_execute_reduction].
  Qed.

  (** ** Evaluation *)
  Definition answers_quietly (m : CM text) : Prop :=
    forall c r c', m c = Ok (r, c') -> pinned c' = pinned c /\
      (c_delta c' = c_delta c \/
       (pinned c = false /\ (r = Val [] \/ exists e, r = Fail e /\ e <> CannotReduceFurther))).
  Lemma quietly_still m : still m -> answers_quietly m.
  Proof. intros H c r c' E. apply H in E. tauto. Qed.
  Lemma quietly_bind {A} (m : CM A) (f : A -> CM text) :
    still m -> (forall a, answers_quietly (f a)) -> answers_quietly (cbind m f).
  Proof.
    intros H K c r c' E. apply bind_back in E. destruct E as (x & c1 & E1 & E2). apply H in E1. destruct E1 as [P1 D1].
    destruct x as [a|e].
    - apply K in E2. destruct E2 as [P2 D2]. split; [congruence|]. rewrite <- P1, <- D1. exact D2.
    - destruct E2 as [-> ->]. auto.
  Qed.
  Lemma quietly_on_irreducible m alt :
    answers_quietly m -> answers_quietly alt -> answers_quietly (on_irreducible m alt).
  Proof.
    intros H K c r c' E. unfold on_irreducible in E. apply bind_back in E. destruct E as (x & c1 & E1 & E2).
    unfold catch in E1. apply obind_ok in E1. destruct E1 as ([y c2] & E1 & E3). injection E3 as <- <-.
    apply H in E1. destruct E1 as [P1 D1].
    assert (S : (exists e, y = Fail e /\ e = CannotReduceFurther /\ alt c2 = Ok (r, c')) \/ (r = y /\ c' = c2)).
    { destruct y as [y|e]; [injection E2 as <- <-; auto|].
      destruct e; try (injection E2 as <- <-; auto; fail). left. eauto. }
    destruct S as [(e & -> & -> & E4)|[-> ->]].
    - apply K in E4. destruct E4 as [P2 D2]. split; [congruence|].
      destruct D1 as [D1|(_ & [D1|(e & D1 & N)])]; [|discriminate|injection D1 as <-; contradiction].
      rewrite <- P1, <- D1. exact D2.
    - auto.
  Qed.
  Lemma quietly_with_pin m : answers_quietly m -> still (with_pin m).
  Proof.
    intros H c r c' E. unfold with_pin in E. apply obind_ok in E. destruct E as ([x c1] & E1 & E2).
    injection E2 as <- <-. apply H in E1. cbn in E1 |- *. destruct E1 as [_ [D|[D _]]]; [auto|discriminate].
  Qed.

  Section Calls.
    Variable call : tree -> CM text.
    Variable call_pair : tree -> tree -> CM text.
    Hypothesis Hcall : forall t, answers_quietly (call t).
    Hypothesis Hpair : forall l r, answers_quietly (call_pair l r).

    Lemma quietly_reduce_and_call l r : answers_quietly (reduce_and_call_pair cfg fuel call_pair l r).
    Proof.
      unfold reduce_and_call_pair. apply quietly_bind; [apply still_reduce|]. intros x.
      apply quietly_bind; [apply still_reduce|]. intros y.
      destruct x as [[x ?]|], y as [[y ?]|]; auto. apply quietly_still, still_fail.
    Qed.
    Lemma quietly_try_reducing t : answers_quietly (try_reducing_then_call cfg fuel call t).
    Proof.
      unfold try_reducing_then_call. apply quietly_bind; [apply still_normal_form|]. intros nf.
      destruct (key_eqb (t_key nf) (t_key t)).
      - apply quietly_bind; [apply still_inferred|]. intros [[y z]|]; apply quietly_still; [apply still_ret|apply still_fail].
      - apply quietly_still, quietly_with_pin, Hcall.
    Qed.
    Lemma quietly_call_step t : answers_quietly (call_step cfg fuel call call_pair t).
    Proof.
      unfold call_step. apply quietly_bind.
      { destruct (t_concept t); [|apply still_ret]. apply still_bind; [apply still_read|]. intros m. apply still_ret. }
      intros [s|]; [apply quietly_still, still_ret|]. destruct (t_exp t) as [[l r]|].
      - apply quietly_on_irreducible; [apply Hpair|]. apply quietly_on_irreducible; [apply quietly_try_reducing|].
        apply quietly_still, still_bind; [apply still_contract|]. intros x. apply still_ret.
      - apply quietly_on_irreducible; [apply quietly_try_reducing|]. apply quietly_still, still_ret.
    Qed.

    Lemma catch_back {A} (m : CM A) c r c' :
      catch m c = Ok (r, c') -> exists x, r = Val x /\ m c = Ok (x, c').
    Proof. unfold catch. intros E. apply obind_ok in E. destruct E as ([x c1] & E1 & E2). injection E2 as <- <-. eauto. Qed.

    Lemma call_let_quiet r c x c' :
      call_let cfg fuel r c = Ok (x, c') -> pinned c' = pinned c /\
        (c_delta c' = c_delta c \/
         (pinned c = false /\
          exists y, x = Val (Some y) /\ match y with Fail e => tame_error e | _ => True end)).
    Proof.
      unfold call_let. intros E. apply bind_back in E. destruct E as (a & c1 & E1 & E2).
      assert (A : pinned c1 = pinned c /\
        (c_delta c1 = c_delta c \/
         (pinned c = false /\
          exists y, a = Val (Some y) /\ match y with Fail e => tame_error e | _ => True end))).
      { destruct (t_exp r) as [[l rr]|]; [|injection E1 as <- <-; auto].
        destruct (t_exp rr) as [[rl rr']|]; [|injection E1 as <- <-; auto].
        apply bind_back in E1. destruct E1 as (b & c2 & E1 & E3). apply catch_back in E1.
        destruct E1 as (y & -> & E1). injection E3 as <- <-. apply guarded_match_pair in E1.
        destruct E1 as [P [D|[P' T]]]; (split; [exact P|]); [auto|]. right. split; [exact P'|].
        exists y. split; [|exact T]. destruct y as [y|e]; [reflexivity|].
        destruct T as [T1 T2]. destruct e; try reflexivity; contradiction. }
      destruct A as [P A].
      destruct a as [[y|]|e].
      - injection E2 as <- <-. split; [exact P|]. destruct A as [A|(P' & y' & Ey & T)]; [auto|].
        right. split; [exact P'|]. injection Ey as <-. eauto.
      - destruct A as [D|(_ & y' & Ey & _)]; [|discriminate].
        apply bind_back in E2. destruct E2 as (t & c2 & E2 & E3). apply still_concrete_ast in E2.
        destruct E2 as [P2 D2]. destruct t as [[t|]|e].
        + apply bind_back in E3. destruct E3 as (b & c3 & E3 & E4). apply catch_back in E3.
          destruct E3 as (y & -> & E3). injection E4 as <- <-. apply guarded_execute_reduction in E3.
          destruct E3 as [P3 [D3|[P3' T]]]; (split; [congruence|]); [left; congruence|].
          right. split; [congruence|]. eauto.
        + injection E3 as <- <-. split; [congruence|]. left. congruence.
        + destruct E3 as [-> ->]. split; [congruence|]. left. congruence.
      - destruct E2 as [-> ->]. destruct A as [D|(_ & y' & Ey & _)]; [auto|discriminate].
    Qed.

    Lemma quietly_call_pair l r : answers_quietly (call_pair_step cfg fuel call call_pair l r).
    Proof.
      intros c x c' E. unfold call_pair_step in E.
      apply bind_back in E. destruct E as (ty & c1 & E1 & E2). apply still_type_of in E1. destruct E1 as [P1 D1].
      destruct ty as [ty|e]; [|destruct E2 as [-> ->]; auto].
      apply bind_back in E2. destruct E2 as (dn & c2 & E2 & E3).
      assert (A : pinned c2 = pinned c1 /\
        (c_delta c2 = c_delta c1 \/
         (pinned c1 = false /\ exists y, dn = Val (Some y) /\
            (y = Val [] \/ exists e, y = Fail e /\ e <> CannotReduceFurther)))).
      { destruct ty as [[]|]; try (injection E2 as <- <-; auto; fail).
        - apply bind_back in E2. destruct E2 as (s & c3 & E2 & E4).
          assert (S : pinned c3 = pinned c1 /\ c_delta c3 = c_delta c1).
          { destruct (t_concept r); [apply still_lift in E2|injection E2 as <- <-]; auto. }
          destruct S. destruct s as [s|e]; [injection E4 as <- <-; auto|destruct E4 as [-> ->]; auto].
        - apply bind_back in E2. destruct E2 as (y & c3 & E2 & E4). apply call_let_quiet in E2.
          destruct E2 as [P2 A]. destruct y as [y|e].
          + injection E4 as <- <-. split; [exact P2|]. destruct A as [A|(P & z & Ez & T)]; [auto|].
            right. split; [exact P|]. injection Ez as ->. destruct z as [[]|e]; eauto.
            exists (Fail e). split; [reflexivity|]. right. exists e. split; [reflexivity|]. apply T.
          + destruct E4 as [-> ->]. split; [exact P2|]. destruct A as [A|(P & z & Ez & T)]; [auto|discriminate].
        - destruct (t_concept r) as [k|]; [|injection E2 as <- <-; auto].
          apply bind_back in E2. destruct E2 as (y & c3 & E2 & E4). apply catch_back in E2.
          destruct E2 as (z & -> & E2). injection E4 as <- <-.
          assert (G : guarded (cbind need_delta (fun _ => cbind (delete_reduction cfg k (display r)) (fun _ => cret ([] : text))))).
          { apply guarded_need, tame_bind; [apply tame_delete|]. intros ?. apply tame_ret. }
          pose proof (G _ _ _ E2) as [P2 [D2|[P2' T]]]; (split; [exact P2|]); [auto|].
          right. split; [exact P2'|]. exists z. split; [reflexivity|]. destruct z as [z|e].
          + left. clear - E2. apply bind_back in E2. destruct E2 as (a & cx & _ & E2).
            destruct a as [a|e]; [|destruct E2; discriminate].
            apply bind_back in E2. destruct E2 as (b & cy & _ & E2).
            destruct b as [b|e]; [|destruct E2; discriminate]. injection E2 as <- <-. reflexivity.
          + right. exists e. split; [reflexivity|]. apply T. }
      destruct A as [P2 A]. destruct dn as [[y|]|e].
      - assert (Y : x = y /\ c' = c2) by (destruct y; injection E3 as <- <-; auto). destruct Y as [-> ->].
        split; [congruence|]. destruct A as [A|(P & z & Ez & T)]; [left; congruence|].
        right. split; [congruence|]. injection Ez as ->. exact T.
      - destruct A as [D2|(_ & z & Ez & _)]; [|discriminate].
        assert (Q : answers_quietly (cbind (c_concrete_type_of cfg r) (fun ty =>
                      if opt_cct_eqb (Some CReduction) ty then try_reducing_then_call cfg fuel call l
                      else reduce_and_call_pair cfg fuel call_pair l r))).
        { apply quietly_bind; [apply still_type_of|]. intros ty'.
          destruct (opt_cct_eqb (Some CReduction) ty'); [apply quietly_try_reducing|apply quietly_reduce_and_call]. }
        apply Q in E3. destruct E3 as [P3 A]. split; [congruence|].
        rewrite <- D1, <- D2, <- P1, <- P2. exact A.
      - destruct E3 as [-> ->]. split; [congruence|]. destruct A as [D2|(_ & z & Ez & _)]; [left; congruence|discriminate].
    Qed.
  End Calls.

  Lemma quietly_calls n :
    (forall t, answers_quietly (fst (calls cfg fuel n) t)) /\
    (forall l r, answers_quietly (snd (calls cfg fuel n) l r)).
  Proof.
    induction n as [|n [IH1 IH2]]; cbn [calls fst snd].
    - split; intros; apply quietly_still, still_fuel.
    - split; intros; [apply quietly_call_step|apply quietly_call_pair]; assumption.
  Qed.
  Lemma quietly_call t : answers_quietly (call cfg fuel t).
  Proof. apply quietly_calls. Qed.
End Parts.

(** ** Reading the text of a command *)
Definition pending (c : ctx) : list (cid * direct) := d_order (overlay (c_delta c)).
(** [m] only records changes satisfying [P]. *)
Definition logs {A} (P : direct -> Prop) (m : CM A) : Prop :=
  forall c r c', m c = Ok (r, c') -> pinned c' = pinned c /\
    exists l, pending c' = pending c ++ l /\ Forall (fun p => P (snd p)) l.
Lemma logs_still {A} P (m : CM A) : still m -> logs P m.
Proof.
  intros H c r c' E. apply H in E. destruct E as [E1 E2]. split; [exact E1|]. exists []. unfold pending.
  rewrite E2, app_nil_r. auto.
Qed.
Lemma logs_bind {A B} P (m : CM A) (f : A -> CM B) : logs P m -> (forall a, logs P (f a)) -> logs P (cbind m f).
Proof.
  intros H K c r c' E. apply bind_back in E. destruct E as (x & c1 & E1 & E2). apply H in E1.
  destruct E1 as (P1 & l1 & Q1 & F1). destruct x as [a|e].
  - apply K in E2. destruct E2 as (P2 & l2 & Q2 & F2). split; [congruence|]. exists (l1 ++ l2).
    rewrite Q2, Q1, app_assoc, Forall_app. auto.
  - destruct E2 as [-> ->]. split; [exact P1|]. eauto.
Qed.
Lemma update_pending d c r c' :
  update d c = Ok (r, c') ->
  exists id, r = Val id /\ pinned c' = pinned c /\ pending c' = pending c ++ [(id, d)] /\
    delta_update d (c_delta c) = Ok (id, c_delta c') /\
    match d with DNew _ => exists u, id = Uncommitted u | DCompose k _ | DReduce k _ | DRemove k => id = k end.
Proof.
  unfold update. intros E. apply obind_ok in E. destruct E as ([id d'] & E1 & E2). injection E2 as <- <-.
  exists id. split; [reflexivity|]. split; [reflexivity|]. cbn [c_delta pending].
  destruct (c_delta c) as [o i] eqn:Ed. unfold pending. rewrite Ed. cbn [overlay c_delta].
  pose proof E1 as E1'. cbn [delta_update] in E1.
  apply obind_ok in E1. destruct E1 as ([id1 o1] & E1 & E2). injection E2 as <- <-.
  apply Sim.update_layer_spec in E1. destruct E1 as (N & _ & _ & O & _).
  split; [cbn; rewrite O; reflexivity|]. split; [exact E1'|].
  destruct d; cbn in N; subst; eauto.
Qed.
Lemma logs_update (P : direct -> Prop) d : P d -> logs P (update d).
Proof.
  intros H c r c' E. apply update_pending in E. destruct E as (id & _ & E1 & E2 & _). split; [exact E1|].
  eexists. split; [exact E2|]. repeat constructor. exact H.
Qed.

(** New concepts: strings, names of new concepts, variables. *)
Definition naming (d : direct) : Prop :=
  match d with
  | DNew (NString _) | DNew NFreeVariable | DNew NBoundVariable | DNew (NReducesTo (Uncommitted _)) => True
  | DNew (NRighthand (Uncommitted _) _ None) | DNew (NDouble (Uncommitted _) None) => True
  | _ => False
  end.

Section Reading.
  Variable cfg : config.
  Variable fuel : nat.

  Lemma logs_new_labelled s l : logs naming (new_labelled_concept cfg s None l).
  Proof.
    unfold new_labelled_concept. apply logs_bind; [apply logs_still, still_lift|]. intros _.
    intros c r c' E. apply bind_back in E. destruct E as (x & c0 & E0 & E).
    pose proof (logs_update naming (DNew (NString s)) I _ _ _ E0) as (P0 & l0 & Q0 & F0).
    apply update_pending in E0. destruct E0 as (str & -> & _ & _ & _ & v & ->).
    apply bind_back in E. destruct E as (x & c1 & E1 & E2).
    pose proof (logs_update naming (DNew (NReducesTo (Uncommitted v))) I _ _ _ E1) as (P1 & l1 & Q1 & F1).
    apply update_pending in E1. destruct E1 as (comp & -> & _ & _ & _ & u & ->).
    assert (N : naming (DNew match l with None => NDouble (Uncommitted u) None | Some l => NRighthand (Uncommitted u) l None end))
      by (destruct l; exact I).
    apply (logs_update naming _ N) in E2. destruct E2 as (P2 & l2 & Q2 & F2).
    split; [congruence|]. exists (l0 ++ l1 ++ l2). rewrite Q2, Q1, Q0, <- !app_assoc, !Forall_app. auto.
  Qed.

  Ltac lg1 :=
    match goal with
    | |- logs _ (cret _) => apply logs_still, still_ret
    | |- logs _ (cfail _) => apply logs_still, still_fail
    | |- logs _ (clift _) => apply logs_still, still_lift
    | |- logs _ (c_read _ _) => apply logs_still, still_lift
    | |- logs _ (c_concrete_id _ _) => apply logs_still, still_lift
    | |- logs _ (c_concrete_type_of _ _) => apply logs_still, still_type_of
    | |- logs _ (c_shuffle _ _) => apply logs_still, still_search'
    | |- logs _ (c_combine _ _ _ _) => apply logs_still, still_combine
    | |- logs _ (c_assoc _ _ _) => apply logs_still, still_assoc
    | |- logs _ need_delta => apply logs_still, still_need
    | |- logs _ (fun _ => OutOfFuel) => apply logs_still, still_fuel
    | |- logs _ (new_labelled_concept _ _ None _) => apply logs_new_labelled
    | |- logs _ (cbind _ _) => apply logs_bind; [|intros ?]
    | H : forall _, logs _ _ |- logs _ _ => apply H
    | H : forall _ _, logs _ _ |- logs _ _ => apply H
    | H : forall _ _ _, logs _ _ |- logs _ _ => apply H
    | |- logs _ (match ?x with _ => _ end) => destruct x
    | |- logs _ (let _ := _ in _) => cbv zeta
    end.
  Ltac lg := repeat lg1; auto.

  Lemma logs_leaf k s c : logs naming (ast_from_syntax_leaf cfg fuel k s c).
  Proof. unfold ast_from_syntax_leaf. lg. Qed.
  Lemma logs_pair l r : logs naming (ast_from_pair cfg fuel l r).
  Proof.
    unfold ast_from_pair. lg. intros x y x' E. injection E as <- <-. split; [reflexivity|]. exists [].
    rewrite app_nil_r. split; [reflexivity|constructor].
  Qed.
  Lemma logs_related ids es : forall acc, logs naming (related_concepts cfg ids es acc).
  Proof. induction es as [|[r comp] es IH]; intros acc; cbn [related_concepts]; lg. Qed.
  Lemma still_precedes a b : still (precedes cfg fuel a b).
  Proof.
    unfold precedes. apply still_bind; [|intros t; apply still_type_of].
    exact (still_search (fun c e =>
            let o := ops_of cfg fuel c in
            sbind (concrete_ast cfg (c_snap c) o e CPrecedes) (fun p =>
            sbind (slift (unwrap p "precedes: unwrap")) (fun p =>
            sbind (o_to_ast o e a) (fun ta =>
            sbind (o_to_ast o e b) (fun tb =>
            sbind (combine_ast cfg (c_snap c) o e p tb) (fun pb =>
            sbind (combine_ast cfg (c_snap c) o e ta pb) (fun apb =>
            smap fst (o_nf o e apb None))))))))).
  Qed.
  Lemma logs_place c all low : logs naming (place_concept cfg fuel c all low).
  Proof.
    induction low as [|l low IH]; cbn [place_concept]; lg; apply logs_still, still_precedes.
  Qed.
  Lemma logs_lowest cs : forall low, logs naming (lowest_concepts cfg fuel cs low).
  Proof. induction cs as [|c cs IH]; intros low; cbn [lowest_concepts]; lg; apply logs_place. Qed.
  Lemma logs_positions ts cs : logs naming (positions_of cfg ts cs).
  Proof. induction cs as [|c cs IH]; cbn [positions_of]; lg. Qed.
  Lemma logs_lowest_info ts : logs naming (lowest_precedence_info cfg fuel ts).
  Proof.
    unfold lowest_precedence_info. lg; first [apply logs_related|apply logs_lowest|apply logs_positions].
  Qed.
  Lemma logs_common ts : forall a, logs naming (common_associativity cfg fuel a ts).
  Proof. induction ts as [|t ts IH]; intros a; cbn [common_associativity]; lg. Qed.
  Section Lists.
    Variable parse : list tree -> CM tree.
    Hypothesis H : forall ts, logs naming (parse ts).
    Lemma logs_handler ts st lp a : logs naming (try_fold_handler cfg fuel parse ts st lp a).
    Proof. unfold try_fold_handler. lg. Qed.
    Lemma logs_fold_right ts lps : forall mn tl, logs naming (fold_right_assoc cfg fuel parse ts mn tl lps).
    Proof. induction lps as [|lp lps IH]; intros mn tl; cbn [fold_right_assoc]; lg. apply logs_handler. Qed.
    Lemma logs_fold_left ts lps : forall st, logs naming (fold_left_assoc cfg fuel parse ts st lps).
    Proof. induction lps as [|lp lps IH]; intros st; cbn [fold_left_assoc]; lg. apply logs_handler. Qed.
  End Lists.
  Lemma logs_heap l : logs naming (heap_iter cfg l).
  Proof. unfold heap_iter. lg. Qed.
  Lemma logs_list n : forall ts, logs naming (ast_from_syntax_list cfg fuel n ts).
  Proof.
    induction n as [|n IH]; intros ts; cbn [ast_from_syntax_list]; lg;
      first [apply logs_lowest_info|apply logs_common|apply logs_heap|apply logs_fold_left|apply logs_fold_right]; auto.
  Qed.
  Lemma logs_parse_list ts : logs naming (parse_list cfg fuel ts).
  Proof. apply logs_list. Qed.
  Fixpoint logs_nested (n : nested) : logs naming (ast_from_nested_syntax cfg fuel n).
  Proof.
    destruct n as [k s c|ns sh]; cbn [ast_from_nested_syntax]; [apply logs_leaf|].
    apply logs_bind.
    - clear sh. induction ns as [|x ns IH]; [lg1|]. apply logs_bind; [apply logs_nested|intros t].
      apply logs_bind; [exact IH|intros ts]. lg1.
    - clear logs_nested. intros ts. lg; first [apply logs_pair|apply logs_parse_list].
  Defined.
  Lemma logs_syntax_list n : logs naming (syntax_list_for_nested_syntax cfg fuel n).
  Proof.
    destruct n as [k s c|ns sh]; cbn [syntax_list_for_nested_syntax]; [lg; apply logs_leaf|].
    induction ns as [|x xs IH]; [lg1|]. apply logs_bind; [apply logs_nested|intros t].
    apply logs_bind; [exact IH|intros ts]. lg1.
  Qed.
  Lemma logs_expression s : logs naming (ast_from_expression cfg fuel s).
  Proof.
    unfold ast_from_expression, c_lex, c_nest. lg; [apply logs_syntax_list|apply logs_parse_list].
  Qed.
  Lemma logs_variables t : logs naming (create_variable_concepts t).
  Proof.
    induction t as [s c k|s c l IHl r IHr fv bv]; cbn [create_variable_concepts]; [|lg].
    destruct k; try (lg; fail).
    intros x r x' E. destruct (aget text_eqb s (c_vars x)).
    - injection E as <- <-. split; [reflexivity|]. exists []. rewrite app_nil_r. auto.
    - revert E. match goal with |- ?m x = _ -> _ => set (mm := m) end.
      assert (L : logs naming mm).
      { subst mm. apply logs_bind; [lg|]. intros _. apply logs_bind.
        - apply logs_update. destruct (smem _ _ _); exact I.
        - intros id y ry y' E. injection E as <- <-. split; [reflexivity|]. exists [].
          rewrite app_nil_r. split; [reflexivity|constructor]. }
      intros E. exact (L _ _ _ E).
  Qed.
End Reading.

(** The tree a command is read as, with the changes recorded on the way (new names). *)
Definition read_tree (cfg : config) (fuel : nat) (s : text) : CM tree :=
  cbind (ast_from_expression cfg fuel s) (fun t =>
  cbind (c_expand cfg fuel t) (fun t c =>
    obind (create_variable_concepts t c) (fun '(r, c) =>
      match r with
      | Val t => Ok (Val t, c)
      | Fail _ => Panic "create_variable_concepts: unwrap"
      end))).
Lemma run_by_tree cfg fuel s c r c' :
  run_command cfg fuel s c = Ok (r, c') ->
  exists x c1, read_tree cfg fuel s c = Ok (x, c1) /\
    match x with Val t => call cfg fuel t c1 = Ok (r, c') | Fail e => r = Fail e /\ c' = c1 end.
Proof.
  unfold run_command, read_tree, cbind. intros E.
  destruct (ast_from_expression cfg fuel s c) as [[[t|e] c1]| | |]; try discriminate; cbn [obind] in *.
  2:{ injection E as <- <-. exists (Fail e), c1. auto. }
  destruct (c_expand cfg fuel t c1) as [[[t2|e] c2]| | |]; try discriminate; cbn [obind] in *.
  2:{ injection E as <- <-. exists (Fail e), c2. auto. }
  destruct (create_variable_concepts t2 c2) as [[[t3|e] c3]| | |]; try discriminate; cbn [obind] in *.
  exists (Val t3), c3. auto.
Qed.
Lemma logs_read_tree cfg fuel s : logs naming (read_tree cfg fuel s).
Proof.
  apply logs_bind; [apply logs_expression|]. intros t. apply logs_bind; [apply logs_still, still_expand|].
  intros t2 c r c' E. apply obind_ok in E. destruct E as ([x c1] & E1 & E2).
  apply (logs_variables t2) in E1. destruct x as [x|e]; [|discriminate]. injection E2 as <- <-. exact E1.
Qed.

(** A command whose answer is neither empty nor an error, and every command that fails
    before its evaluation, records new names only. *)
Lemma run_quiet cfg fuel s c r c' :
  run_command cfg fuel s c = Ok (r, c') ->
  (exists l, pending c' = pending c ++ l /\ Forall (fun p => naming (snd p)) l) \/
  r = Val [] \/ exists e, r = Fail e.
Proof.
  intros E. apply run_by_tree in E. destruct E as (x & c1 & E1 & E2).
  destruct x as [t|e]; [|right; right; exists e; apply E2].
  apply logs_read_tree in E1. destruct E1 as (_ & l & E1 & F).
  apply quietly_call in E2. destruct E2 as [_ [D|(_ & [D|(e & D & _)])]]; [|auto|eauto].
  left. exists l. split; [|exact F]. unfold pending in *. rewrite D. exact E1.
Qed.
