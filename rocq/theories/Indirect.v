(** Commands that are reached by evaluating something else: they record no change. *)
From Verif Require Import Snapshot Search Context Quiet SearchPlain MapFacts StoreFacts RangeFacts AstFacts.
From Coq Require Import List String.
Import ListNotations.
Local Open Scope zia_scope.

(** Looking something up: nothing changes, and failures end the command. *)
Definition looks {A} (m : CM A) : Prop :=
  forall c r c', m c = Ok (r, c') ->
    c_snap c' = c_snap c /\ c_delta c' = c_delta c /\ pinned c' = pinned c /\
    match r with Fail e => tame_error e | _ => True end.
(** Failing while the pending changes are shared, without a change, with an error such that [P]. *)
Definition refuses (P : zia_error -> Prop) {A} (m : CM A) : Prop :=
  forall c r c', pinned c = true -> m c = Ok (r, c') ->
    c_snap c' = c_snap c /\ c_delta c' = c_delta c /\ pinned c' = true /\ exists e, r = Fail e /\ P e.
Definition final (e : zia_error) : Prop := e <> CannotReduceFurther.
Definition any (e : zia_error) : Prop := True.

Lemma looks_ret {A} (a : A) : looks (cret a).
Proof. intros c r c' [= <- <-]. auto. Qed.
Lemma looks_lift {A} (f : ctx -> outcome A) : (forall c, plain (f c)) -> looks (clift f).
Proof.
  intros H c r c' E. unfold clift in E. specialize (H c). destruct (f c); try discriminate; injection E as <- <-;
    repeat (split; [reflexivity|]); [exact I|]. apply store_error_tame, H. reflexivity.
Qed.
Lemma looks_search {A} (f : ctx -> env -> SM A) :
  (forall c e, splain (f c e)) -> looks (fun c => with_search (f c) c).
Proof.
  intros H c r c' E. unfold with_search in E. specialize (H c (new_env (c_delta c) (c_bound c)) (start_state (c_cache c) (c_tick c))).
  destruct (f c _ _) as [[a s]| | |]; try discriminate; injection E as <- <-;
    repeat (split; [reflexivity|]); [exact I|]. apply store_error_tame, H. reflexivity.
Qed.
Lemma refuses_fail (P : zia_error -> Prop) {A} e : P e -> refuses P (cfail e : CM A).
Proof. intros H c r c' X [= <- <-]. eauto 10. Qed.
Lemma refuses_fuel P {A} : refuses P (fun _ => OutOfFuel : outcome (zres A * ctx)).
Proof. intros c r c' X. discriminate. Qed.
Lemma refuses_need (P : zia_error -> Prop) {A} (f : unit -> CM A) :
  P MultiplePointersToDelta -> refuses P (cbind need_delta f).
Proof.
  intros H c r c' X E. apply bind_back in E. destruct E as (x & c1 & E1 & E2). unfold need_delta in E1.
  rewrite X in E1. injection E1 as <- <-. destruct E2 as [-> ->]. eauto 10.
Qed.
Lemma refuses_bind (P : zia_error -> Prop) {A B} (m : CM A) (f : A -> CM B) :
  (forall e, tame_error e -> P e) -> looks m -> (forall a, refuses P (f a)) -> refuses P (cbind m f).
Proof.
  intros HP H K c r c' X E. apply bind_back in E. destruct E as (x & c1 & E1 & E2).
  apply H in E1. destruct E1 as (S1 & D1 & P1 & T). destruct x as [a|e].
  - apply K in E2; [|congruence]. destruct E2 as (S2 & D2 & P2 & F). split; [congruence|]. split; [congruence|]. auto.
  - destruct E2 as [-> ->]. split; [congruence|]. split; [congruence|]. split; [congruence|]. eauto 10.
Qed.
Lemma refuses_weak (P Q : zia_error -> Prop) {A} (m : CM A) :
  (forall e, P e -> Q e) -> refuses P m -> refuses Q m.
Proof. intros H K c r c' X E. destruct (K c r c' X E) as (S1 & S2 & S3 & e & -> & F). eauto 8. Qed.
Lemma tame_final e : tame_error e -> final e. Proof. intros [H _]. exact H. Qed.
Lemma tame_any e : tame_error e -> any e. Proof. constructor. Qed.

Section Parts.
  Variable cfg : config.
  Variable fuel : nat.
  Let SP snap := search_plain cfg snap fuel fuel.

  Lemma looks_read id : looks (c_read cfg id).
  Proof. apply looks_lift. intros c. apply plain_read. Qed.
  Lemma looks_type id : looks (c_concrete_type cfg id).
  Proof. apply looks_lift. intros c. apply plain_type. Qed.
  Lemma looks_type_of t : looks (c_concrete_type_of cfg t).
  Proof. unfold c_concrete_type_of. destruct (t_concept t); [apply looks_type|apply looks_ret]. Qed.
  Lemma looks_reduce t : looks (c_reduce cfg fuel t).
  Proof. apply (looks_search (fun c e => o_reduce (ops_of cfg fuel c) e t)). intros c e. apply (op_reduce _ (SP _)). Qed.
  Lemma looks_to_ast id : looks (c_to_ast cfg fuel id).
  Proof. apply (looks_search (fun c e => o_to_ast (ops_of cfg fuel c) e id)). intros c e. apply (op_to_ast _ (SP _)). Qed.
  Lemma looks_normal_form t : looks (c_normal_form cfg fuel t).
  Proof.
    apply (looks_search (fun c e => smap fst (o_nf (ops_of cfg fuel c) e t None))). intros c e.
    apply splain_smap, (op_nf _ (SP _)).
  Qed.
  Lemma looks_inferred t : looks (c_inferred cfg fuel t).
  Proof.
    apply (looks_search (fun c e => find_examples_of_inferred_reduction cfg (c_snap c) fuel (ops_of cfg fuel c) e t)).
    intros c e. apply inferred_plain, SP.
  Qed.
  Lemma looks_concrete_ast cc : looks (c_concrete_ast cfg fuel cc).
  Proof.
    apply (looks_search (fun c e => concrete_ast cfg (c_snap c) (ops_of cfg fuel c) e cc)).
    intros c e. apply concrete_ast_plain, SP.
  Qed.

  Lemma refuses_removing t : refuses final (try_removing_reduction cfg t).
  Proof. unfold try_removing_reduction. apply refuses_need. discriminate. Qed.
  Lemma refuses_reduction t nf : refuses final (execute_reduction cfg fuel t nf).
  Proof.
    unfold execute_reduction.
    destruct (t_contains nf t); [apply refuses_fail; discriminate|].
    destruct (key_eqb (t_key t) (t_key nf)); [apply refuses_removing|].
    apply refuses_bind; [exact tame_final|apply looks_reduce|]. intros x.
    apply refuses_bind; [exact tame_final|destruct x; [apply looks_ret|apply looks_inferred]|]. intros [[y z]|].
    - apply refuses_fail. discriminate.
    - apply refuses_need. discriminate.
  Qed.
  Lemma refuses_define n o : refuses final (define cfg fuel n o).
  Proof.
    unfold define.
    repeat match goal with
    | |- refuses _ (cfail (if ?b then _ else _)) => destruct b
    | |- refuses _ (cfail _) => apply refuses_fail; discriminate
    | |- refuses _ (cbind need_delta _) => apply refuses_need; discriminate
    | |- refuses _ (cbind _ _) =>
        apply refuses_bind; [exact tame_final|first [apply looks_read|apply looks_to_ast|
          apply looks_lift; intros ?; first [apply plain_concept_of_label|apply plain_ok]]|intros ?]
    | |- refuses _ (match ?x with _ => _ end) => destruct x
    end.
  Qed.
  Lemma refuses_composition n o : refuses final (execute_composition cfg fuel n o).
  Proof. unfold execute_composition. destruct (t_contains o n); [apply refuses_fail; discriminate|apply refuses_define]. Qed.
  Lemma refuses_match n : forall l rl rr, refuses any (match_righthand_pair cfg fuel n l rl rr).
  Proof.
    assert (W : forall A (m : CM A), refuses final m -> refuses any m) by (intros A m; apply refuses_weak; constructor).
    induction n as [|n IH]; intros l rl rr; cbn [match_righthand_pair]; [apply refuses_fuel|].
    destruct (t_concept rl) as [c|]; [|apply refuses_fail; constructor].
    apply refuses_bind; [exact tame_any|apply looks_type|]. intros ty.
    assert (D : refuses any (cbind (c_read cfg c) (fun m => match m_reduction m with
                   | None => cfail CannotReduceFurther
                   | Some r => cbind (c_to_ast cfg fuel r) (fun t => match_righthand_pair cfg fuel n l t rr) end))).
    { apply refuses_bind; [exact tame_any|apply looks_read|]. intros m. destruct (m_reduction m).
      - apply refuses_bind; [exact tame_any|apply looks_to_ast|]. intros t. apply IH.
      - apply refuses_fail. constructor. }
    destruct ty as [[]|]; first [exact D|apply W, refuses_composition|apply W, refuses_reduction].
  Qed.

  (** The built-in concept true is found. *)
  Definition true_known (c : ctx) : Prop :=
    forall v, concrete_concept_id cfg (c_snap c) (c_delta c) CTrue = Ok v -> v <> None.
  Lemma concrete_ast_known c r c' :
    true_known c -> c_concrete_ast cfg fuel CTrue c = Ok (r, c') -> r <> Val None.
  Proof.
    intros T E ->. unfold c_concrete_ast, with_search, concrete_ast, and_then in E. unfold sbind in E at 1.
    unfold concrete_id, slift in E. cbn [e_delta new_env] in E.
    destruct (concrete_concept_id cfg (c_snap c) (c_delta c) CTrue) as [v| | |] eqn:V; try discriminate.
    cbn [obind] in E. destruct v as [v|]; [|destruct (T None V); reflexivity].
    unfold smap, sbind in E. destruct (o_to_ast _ _ _ _) as [[a s]| | |]; discriminate.
  Qed.
  Lemma refused_let r c x c' :
    true_known c -> pinned c = true -> call_let cfg fuel r c = Ok (x, c') ->
    c_snap c' = c_snap c /\ c_delta c' = c_delta c /\ pinned c' = true /\
    exists e, final e /\ (x = Fail e \/ x = Val (Some (Fail e))).
  Proof.
    intros T P E. unfold call_let in E. apply bind_back in E. destruct E as (a & c1 & E1 & E2).
    assert (A : c_snap c1 = c_snap c /\ c_delta c1 = c_delta c /\ pinned c1 = true /\
              (a = Val None \/ exists e, final e /\ a = Val (Some (Fail e)))).
    { destruct (t_exp r) as [[l rr]|]; [|injection E1 as <- <-; auto].
      destruct (t_exp rr) as [[rl rr']|]; [|injection E1 as <- <-; auto].
      apply bind_back in E1. destruct E1 as (b & c2 & E1 & E3). apply catch_back in E1.
      destruct E1 as (y & -> & E1). injection E3 as <- <-. apply refuses_match in E1; [|exact P].
      destruct E1 as (S1 & S2 & S3 & e & -> & _). split; [exact S1|]. split; [exact S2|]. split; [exact S3|].
      destruct e; auto; right; eexists; (split; [|reflexivity]); discriminate. }
    destruct A as (S1 & S2 & S3 & A). destruct A as [->|(e & F & ->)].
    - apply bind_back in E2. destruct E2 as (t & c2 & E2 & E3).
      assert (T1 : true_known c1) by (unfold true_known; rewrite S1, S2; exact T).
      pose proof (concrete_ast_known _ _ _ T1 E2) as N.
      apply looks_concrete_ast in E2. destruct E2 as (Q1 & Q2 & Q3 & Q4). destruct t as [[t|]|e].
      + apply bind_back in E3. destruct E3 as (b & c3 & E3 & E4). apply catch_back in E3.
        destruct E3 as (y & -> & E3). injection E4 as <- <-. apply refuses_reduction in E3; [|congruence].
        destruct E3 as (R1 & R2 & R3 & e & -> & F). split; [congruence|]. split; [congruence|]. eauto.
      + contradiction.
      + destruct E3 as [-> ->]. split; [congruence|]. split; [congruence|]. split; [congruence|].
        exists e. split; [apply tame_final, Q4|auto].
    - injection E2 as <- <-. split; [exact S1|]. split; [exact S2|]. eauto.
  Qed.

  (** A pair that is a `let` command, or a `forget` command about a concept. *)
  Definition is_command (c : ctx) (l r : tree) : Prop :=
    exists k, t_concept l = Some k /\
      (concrete_concept_type cfg (c_snap c) (c_delta c) k = Ok (Some CLet) \/
       concrete_concept_type cfg (c_snap c) (c_delta c) k = Ok (Some CForget) /\ t_concept r <> None).
  Lemma refused_pair n l r c x c' :
    true_known c -> pinned c = true -> is_command c l r ->
    snd (calls cfg fuel n) l r c = Ok (x, c') -> exists e, x = Fail e /\ final e.
  Proof.
    intros T P (k & K & TY) E. destruct n as [|n]; [discriminate|]. cbn [calls snd] in E.
    unfold call_pair_step in E. apply bind_back in E. destruct E as (ty & c1 & E1 & E2).
    unfold c_concrete_type_of, c_concrete_type, clift in E1. rewrite K in E1.
    destruct TY as [TY|[TY N]]; rewrite TY in E1; injection E1 as <- <-;
      apply bind_back in E2; destruct E2 as (dn & c2 & E2 & E3).
    - apply bind_back in E2. destruct E2 as (y & c3 & E2 & E4).
      destruct (refused_let _ _ _ _ T P E2) as (_ & _ & _ & e & F & [->| ->]).
      + destruct E4 as [-> ->]. destruct E3 as [-> ->]. eauto.
      + injection E4 as <- <-. injection E3 as <- <-. eauto.
    - destruct (t_concept r) as [i|]; [|contradiction].
      apply bind_back in E2. destruct E2 as (y & c3 & E2 & E4). apply catch_back in E2.
      destruct E2 as (z & -> & E2). injection E4 as <- <-.
      apply bind_back in E2. destruct E2 as (w & c4 & E2 & E4). unfold need_delta in E2. rewrite P in E2.
      injection E2 as <- <-. destruct E4 as [-> ->]. injection E3 as <- <-.
      exists MultiplePointersToDelta. split; [reflexivity|discriminate].
  Qed.
  (** The concept of [t], if it has one, is not a string. *)
  Definition not_a_string (c : ctx) (t : tree) : Prop :=
    forall k m, t_concept t = Some k -> read_concept cfg (c_snap c) (c_delta c) k = Ok m -> m_string m = None.
  Lemma no_string t c s c1 :
    not_a_string c t ->
    match t_concept t with
    | Some k => cbind (c_read cfg k) (fun m => cret (m_string m))
    | None => cret None
    end c = Ok (s, c1) ->
    (c1 = c /\ s = Val None) \/ exists e, s = Fail e /\ final e.
  Proof.
    intros S E. destruct (t_concept t) as [k|] eqn:K; [|injection E as <- <-; auto].
    apply bind_back in E. destruct E as (m & c2 & E & E1). pose proof (looks_read _ _ _ _ E) as (_ & _ & _ & T).
    unfold c_read in E. apply lift_back in E. destruct E as [-> E]. destruct m as [m|e].
    - injection E1 as <- <-. left. split; [reflexivity|]. rewrite (S k m K E). reflexivity.
    - destruct E1 as [-> _]. right. exists e. split; [reflexivity|apply tame_final, T].
  Qed.
  Lemma refused_call n t l r c x c' :
    true_known c -> pinned c = true -> not_a_string c t -> t_exp t = Some (l, r) -> is_command c l r ->
    fst (calls cfg fuel n) t c = Ok (x, c') -> exists e, x = Fail e /\ final e.
  Proof.
    intros T P S X C E. destruct n as [|n]; [discriminate|]. cbn [calls fst] in E.
    unfold call_step in E. apply bind_back in E. destruct E as (s & c1 & E1 & E2).
    destruct (no_string _ _ _ _ S E1) as [[-> ->]|(e & -> & F)]; [|destruct E2 as [-> _]; eauto].
    rewrite X in E2. unfold on_irreducible in E2 at 1. apply bind_back in E2. destruct E2 as (y & c2 & E2 & E3).
    apply catch_back in E2. destruct E2 as (z & -> & E2).
    destruct (refused_pair _ _ _ _ _ _ T P C E2) as (e & -> & F).
    destruct e; try (injection E3 as <- <-; eauto; fail). destruct F. reflexivity.
  Qed.

  (** Evaluating a symbol records no change. *)
  Lemma symbol_still n t : t_exp t = None -> still (fst (calls cfg fuel n) t).
  Proof.
    intros X. destruct n as [|n]; [intros c r c'; discriminate|]. cbn [calls fst]. unfold call_step.
    apply still_bind.
    { destruct (t_concept t); [|apply still_ret]. apply still_bind; [apply still_read|]. intros m. apply still_ret. }
    intros [s|]; [apply still_ret|]. rewrite X. intros c r c' E. unfold on_irreducible in E.
    apply bind_back in E. destruct E as (y & c1 & E1 & E2). apply catch_back in E1. destruct E1 as (z & -> & E1).
    assert (S1 : pinned c1 = pinned c /\ c_delta c1 = c_delta c).
    { revert E1. generalize (fst (calls cfg fuel n)) (proj1 (quietly_calls cfg fuel n)). intros cl Q E1.
      unfold try_reducing_then_call in E1. apply bind_back in E1. destruct E1 as (nf & c2 & E1 & E3).
      apply still_normal_form in E1. destruct E1 as [P1 D1]. destruct nf as [nf|e]; [|destruct E3 as [-> ->]; auto].
      destruct (key_eqb (t_key nf) (t_key t)).
      - apply bind_back in E3. destruct E3 as (i & c3 & E3 & E4). apply still_inferred in E3. destruct E3 as [P2 D2].
        destruct i as [[[i w]|]|e]; [injection E4 as <- <-|injection E4 as <- <-|destruct E4 as [-> ->]];
          (split; congruence).
      - apply (quietly_with_pin _ (Q nf)) in E3. destruct E3. split; congruence. }
    destruct S1 as [P1 D1]. destruct z as [z|e]; [injection E2 as <- <-; auto|].
    destruct e; injection E2 as <- <-; auto.
  Qed.
  (** A symbol whose normal form is a `let` or `forget` command is answered with an error. *)
  Lemma symbol_refused n t nf l r c c1 x c' :
    t_exp t = None -> not_a_string c t -> true_known c ->
    c_normal_form cfg fuel t c = Ok (Val nf, c1) -> t_key nf <> t_key t ->
    t_exp nf = Some (l, r) -> not_a_string c nf -> is_command c l r ->
    fst (calls cfg fuel n) t c = Ok (x, c') -> exists e, x = Fail e.
  Proof.
    intros X S T N K XN SN C E. destruct n as [|n]; [discriminate|]. cbn [calls fst] in E.
    unfold call_step in E. apply bind_back in E. destruct E as (s & c2 & E1 & E2).
    destruct (no_string _ _ _ _ S E1) as [[-> ->]|(e & -> & F)]; [|destruct E2 as [-> _]; eauto].
    rewrite X in E2. unfold on_irreducible in E2. apply bind_back in E2. destruct E2 as (y & c3 & E2 & E3).
    apply catch_back in E2. destruct E2 as (z & -> & E2).
    unfold try_reducing_then_call in E2. apply bind_back in E2. destruct E2 as (nf' & c4 & E2 & E4).
    rewrite N in E2. injection E2 as <- <-.
    destruct (key_eqb_spec (t_key nf) (t_key t)) as [?|_]; [contradiction|].
    pose proof (looks_normal_form t _ _ _ N) as (S1 & D1 & P1 & _).
    unfold with_pin in E4. apply obind_ok in E4. destruct E4 as ([w c5] & E4 & E5). injection E5 as <- <-.
    assert (R : exists e, w = Fail e /\ final e).
    { refine (refused_call n nf l r _ _ _ _ _ _ XN _ E4).
      - unfold true_known. cbn [c_snap c_delta]. rewrite S1, D1. exact T.
      - reflexivity.
      - unfold not_a_string. cbn [c_snap c_delta]. rewrite S1, D1. exact SN.
      - unfold is_command. cbn [c_snap c_delta]. rewrite S1, D1. exact C. }
    destruct R as (e & -> & F). destruct e; try (injection E3 as <- <-; eauto; fail). destruct F. reflexivity.
  Qed.
End Parts.
