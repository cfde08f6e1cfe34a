(** What a search does to the caches: a way to prove that every search keeps a property of the
    states of the search, given that every single change of a cache keeps it. *)
From Verif Require Import Snapshot Search Questions MapFacts StoreFacts SearchKeeps.
From Coq Require Import List PeanoNat.
Import ListNotations.
Local Open Scope zia_scope.

(** A delta with further layers in which there are further bound variables. *)
Inductive widens : delta -> delta -> Prop :=
| WidensSame d : widens d d
| WidensLayer d d' : widens d d' -> widens d (delta_spawn d')
| WidensVariable d d1 v d2 :
    widens d d1 -> delta_insert_new NBoundVariable d1 = Ok (v, d2) -> widens d d2.

(** What has to be known of the property [J] of states, of the relation [I] between an earlier
    and a later state, of the environments [P] in which evaluations take place, of the new
    environments [P1] and of the handles [Hd] of new caches. *)
Record cache_laws (cfg : config) (snap : snapshot) (rf : nat) (J : sstate -> Prop)
    (I : sstate -> sstate -> Prop) (P P1 : env -> Prop) (Hd : nat -> Prop) : Prop := {
  l_refl : forall s, J s -> I s s;
  l_trans : forall s1 s2 s3, I s1 s2 -> I s2 s3 -> I s1 s3;
  l_tick : forall s n, J s ->
    J (SState (s_red s) (s_syn s) (s_inf s) n) /\ I s (SState (s_red s) (s_syn s) (s_inf s) n);
  l_new : forall s h s', J s -> new_red_cache s = Ok (h, s') -> Hd h /\ J s' /\ I s s';
  l_spawn : forall e h d s e' s', P e -> Hd h -> widens (e_delta e) d -> J s -> spawn e h d s = Ok (e', s') ->
    P1 e' /\ J s' /\ I s s';
  l_p1 : forall e, P1 e -> P e;
  (* only what is found to be an instance of a generalisation is masked *)
  l_mask : forall e e0 vm ml t g s s1, P e -> P1 e0 -> e_mask e0 = e_mask e ->
    check_generalisation cfg snap e t g s = Ok (Some vm, s1) -> ml_push (e_mask e0) vm = Some ml ->
    P1 (with_mask e0 ml);
  l_eval : forall e k, P1 e -> P1 (with_evaluating e k);
  l_infer : forall e c, P1 e -> P1 (with_inferring e c);
  (* the result of an evaluation is remembered *)
  l_red : forall n e t s r s1 s2, P e -> J s -> lookup_red (e_reds e) (t_key t) (s_red s) = None ->
    J s1 -> I s s1 -> insert_reduction e t r s1 = Ok (tt, s2) ->
    o_reduce (search cfg snap rf (S n)) e t s = Ok (r, s2) -> J s2 /\ I s s2;
  (* the tree of a concept is remembered *)
  l_syn : forall n e c m t s s1 s2, P e -> J s -> ml_get (e_mask e) c = None ->
    aget cid_eqb c (nth (e_syn e) (s_syn s) []) = None ->
    read_concept cfg snap (e_delta e) c = Ok m ->
    J s1 -> I s s1 -> insert_syntax e m t s1 = Ok (tt, s2) ->
    (forall n' e' c' s3 t' s4, n' <= n -> P e' -> J s3 ->
       o_to_ast (search cfg snap rf n') e' c' s3 = Ok (t', s4) -> J s4) ->
    o_to_ast (search cfg snap rf (S n)) e c s = Ok (t, s2) -> J s2 /\ I s s2;
  (* an inference is remembered *)
  l_inf : forall n e c t r s s1 s2, P e -> aget cid_eqb c (s_inf s) = None -> J s -> J s1 -> I s s1 -> J s2 -> I s1 s2 ->
    o_to_ast (search cfg snap rf n) e c s = Ok (t, s1) ->
    find_examples_of_inferred_reduction cfg snap rf (search cfg snap rf n) e t s1 = Ok (r, s2) ->
    J (SState (s_red s2) (s_syn s2) (aset cid_eqb c r (s_inf s2)) (s_tick s2)) /\
    I s2 (SState (s_red s2) (s_syn s2) (aset cid_eqb c r (s_inf s2)) (s_tick s2))
}.

Section Laws.
  Variables (cfg : config) (snap : snapshot) (rf : nat) (J : sstate -> Prop)
    (I : sstate -> sstate -> Prop) (P P1 : env -> Prop) (Hd : nat -> Prop).
  Hypothesis L : cache_laws cfg snap rf J I P P1 Hd.

  Definition kp {A} (m : SM A) : Prop :=
    forall s a s', J s -> m s = Ok (a, s') -> J s' /\ I s s'.
  Lemma kp_ret {A} (a : A) : kp (sret a).
  Proof. intros s b s' H [= _ <-]. split; [exact H|]. apply (l_refl _ _ _ _ _ _ _ _ L), H. Qed.
  Lemma kp_bind A B (m : SM A) (f : A -> SM B) : kp m -> (forall a, kp (f a)) -> kp (sbind m f).
  Proof.
    intros H K s b s' HJ E. apply sb in E. destruct E as (a & s1 & E1 & E2).
    destruct (H _ _ _ HJ E1) as [J1 I1]. destruct (K _ _ _ _ J1 E2) as [J2 I2].
    split; [exact J2|]. eapply (l_trans _ _ _ _ _ _ _ _ L); eassumption.
  Qed.
  Lemma kp_new B (f : nat -> SM B) : (forall h, Hd h -> kp (f h)) -> kp (sbind new_red_cache f).
  Proof.
    intros K s b s' HJ E. apply sb in E. destruct E as (h & s1 & E1 & E2).
    destruct (l_new _ _ _ _ _ _ _ _ L _ _ _ HJ E1) as (Hh & J1 & I1).
    destruct (K _ Hh _ _ _ J1 E2) as [J2 I2].
    split; [exact J2|]. eapply (l_trans _ _ _ _ _ _ _ _ L); eassumption.
  Qed.
  Lemma kp_spawn B e h d (f : env -> SM B) :
    P e -> Hd h -> widens (e_delta e) d -> (forall e', P1 e' -> kp (f e')) ->
    kp (sbind (spawn e h d) f).
  Proof.
    intros He Hh Hw K s b s' HJ E. apply sb in E. destruct E as (e' & s1 & E1 & E2).
    destruct (l_spawn _ _ _ _ _ _ _ _ L _ _ _ _ _ _ He Hh Hw HJ E1) as (He' & J1 & I1).
    destruct (K _ He' _ _ _ J1 E2) as [J2 I2].
    split; [exact J2|]. eapply (l_trans _ _ _ _ _ _ _ _ L); eassumption.
  Qed.
  Lemma kp_lift A (x : outcome A) : kp (slift x).
  Proof.
    intros s a s' H E. unfold slift in E. apply obind_ok in E. destruct E as (y & _ & [= _ <-]).
    split; [exact H|]. apply (l_refl _ _ _ _ _ _ _ _ L), H.
  Qed.
  Lemma kp_lifted A B (x : outcome A) (f : A -> SM B) :
    (forall a, x = Ok a -> kp (f a)) -> kp (sbind (slift x) f).
  Proof.
    intros K s b s' H E. apply sb in E. destruct E as (a & s1 & E1 & E2). unfold slift in E1.
    apply obind_ok in E1. destruct E1 as (y & E1 & [= -> <-]). eapply K; eassumption.
  Qed.
  Lemma kp_smap A B (f : A -> B) (m : SM A) : kp m -> kp (smap f m).
  Proof. intros H. unfold smap. apply kp_bind; [exact H|]. intros a. apply kp_ret. Qed.
  Lemma kp_and_then A B (m : SM (option A)) (f : A -> SM (option B)) :
    kp m -> (forall a, kp (f a)) -> kp (and_then m f).
  Proof. intros H K. unfold and_then. apply kp_bind; [exact H|]. intros [a|]; [apply K|apply kp_ret]. Qed.
  Lemma kp_or_else A (m n : SM (option A)) : kp m -> kp n -> kp (or_else m n).
  Proof. intros H K. unfold or_else. apply kp_bind; [exact H|]. intros [a|]; [apply kp_ret|exact K]. Qed.
  Lemma kp_opt_then A B (o : option A) (f : A -> SM (option B)) :
    (forall a, kp (f a)) -> kp (opt_then o f).
  Proof. intros K. destruct o; [apply K|apply kp_ret]. Qed.
  Lemma kp_find_map A B (f : A -> SM (option B)) l : (forall a, kp (f a)) -> kp (find_map f l).
  Proof.
    intros K. induction l as [|a l IH]; cbn [find_map]; [apply kp_ret|].
    apply kp_or_else; [apply K|exact IH].
  Qed.
  Lemma kp_fuel A : kp (out_of_fuel : SM A).
  Proof. intros s a s' _ E. discriminate. Qed.
  Lemma kp_tick : kp fresh_tick.
  Proof. intros s a s' H [= _ <-]. apply (l_tick _ _ _ _ _ _ _ _ L), H. Qed.
  Lemma kp_same A (m : SM A) : (forall s a s', m s = Ok (a, s') -> s' = s) -> kp m.
  Proof. intros H s a s' HJ E. apply H in E. subst. split; [exact HJ|]. apply (l_refl _ _ _ _ _ _ _ _ L), HJ. Qed.
  Lemma kp_cached_red e t : kp (cached_reduction e t).
  Proof. apply kp_same. unfold cached_reduction. intros s a s' [= _ <-]. reflexivity. Qed.
  Lemma kp_cached_syn e t : kp (cached_syntax e t).
  Proof. apply kp_same. unfold cached_syntax. intros s a s' [= _ <-]. reflexivity. Qed.
  Lemma kp_cached_inf c : kp (cached_inference c).
  Proof. apply kp_same. unfold cached_inference. intros s a s' [= _ <-]. reflexivity. Qed.

  Record ops_kp (o : ops) : Prop := {
    kp_reduce : forall e t, P e -> kp (o_reduce o e t);
    kp_to_ast : forall e c, P e -> kp (o_to_ast o e c);
    kp_assoc : forall e t, P e -> kp (o_assoc o e t);
    kp_expand : forall e t, P e -> kp (o_expand o e t);
    kp_nf : forall e t w, P e -> kp (o_nf o e t w);
    kp_evidence : forall e l r, P e -> kp (o_evidence o e l r);
    kp_examples : forall R e g eqs (k : ex_subs -> SM (option R)), P e ->
        (forall x, kp (k x)) -> kp (o_examples o e g eqs k)
  }.
  Create HintDb kp.
  Hint Constants Opaque : kp.
  Hint Resolve kp_ret kp_tick kp_cached_red kp_cached_syn kp_cached_inf kp_reduce kp_to_ast kp_assoc kp_expand kp_nf kp_evidence : kp.
  Lemma new_known e : P1 e -> P e.
  Proof. exact (l_p1 _ _ _ _ _ _ _ _ L e). Qed.
  Lemma evaluating_new e k : P1 e -> P1 (with_evaluating e k).
  Proof. exact (l_eval _ _ _ _ _ _ _ _ L e k). Qed.
  Lemma inferring_new e c : P1 e -> P1 (with_inferring e c).
  Proof. exact (l_infer _ _ _ _ _ _ _ _ L e c). Qed.
  Hint Resolve new_known evaluating_new inferring_new : kp.

  Ltac step :=
    cbv beta zeta;
    match goal with
    | |- kp (sbind new_red_cache _) => apply kp_new; intros ? ?
    | |- kp (sbind (spawn _ _ _) _) => apply kp_spawn; [solve [eauto 4 with kp]|assumption|solve [eauto using widens]|intros ? ?]
    | |- kp (sbind (slift _) _) => apply kp_lifted; intros ? ?
    | |- kp (sbind _ _) => apply kp_bind; [|intros ?]
    | |- kp (slift _) => apply kp_lift
    | |- kp (smap _ _) => apply kp_smap
    | |- kp (and_then _ _) => apply kp_and_then; [|intros ?]
    | |- kp (or_else _ _) => apply kp_or_else
    | |- kp (opt_then _ _) => apply kp_opt_then; intros ?
    | |- kp (find_map _ _) => apply kp_find_map; intros ?
    | |- kp (o_examples _ _ _ _ _) => eapply kp_examples; [solve [eauto 2 with kp]|solve [eauto 4 with kp]|intros ?]
    | |- kp (match ?x with _ => _ end) => destruct x
    | |- kp _ => solve [eauto 5 with kp]
    end.

  Section Steps.
    Variable n : nat.
    Notation o := (search cfg snap rf n).
    Hypothesis OB : forall m, m <= n -> ops_kp (search cfg snap rf m).
    Lemma O : ops_kp o.
    Proof. apply OB. constructor. Qed.
    Hint Resolve O : kp.
    Ltac t := repeat step.
    Lemma read_kp e c : kp (read cfg snap e c).
    Proof. unfold read. t. Qed.
    Lemma concrete_id_kp e c : kp (concrete_id cfg snap e c).
    Proof. unfold concrete_id. t. Qed.
    Lemma concrete_type_kp e c : kp (concrete_type cfg snap e c).
    Proof. unfold concrete_type. t. Qed.
    Hint Resolve read_kp concrete_id_kp concrete_type_kp : kp.
    Lemma concrete_type_of_ast_kp e x : kp (concrete_type_of_ast cfg snap e x).
    Proof. unfold concrete_type_of_ast. t. Qed.
    Lemma is_concrete_type_kp e cc x : kp (is_concrete_type cfg snap e cc x).
    Proof. unfold is_concrete_type. t. Qed.
    Lemma composition_of_concept_kp e x : kp (composition_of_concept cfg snap e x).
    Proof. unfold composition_of_concept. t. Qed.
    Lemma is_free_variable_kp e x : kp (is_free_variable cfg snap e x).
    Proof. unfold is_free_variable. t. Qed.
    Hint Resolve concrete_type_of_ast_kp is_concrete_type_kp composition_of_concept_kp is_free_variable_kp : kp.
    Lemma is_leaf_variable_concept_kp e x : kp (is_leaf_variable_concept cfg snap e x).
    Proof. unfold is_leaf_variable_concept. t. Qed.
    Lemma contains_bound_kp e x : kp (contains_bound_variable_syntax cfg snap e x).
    Proof. induction x as [s c k|s c l IHl r IHr fv bv]; cbn [contains_bound_variable_syntax]; t. Qed.
    Hint Resolve is_leaf_variable_concept_kp contains_bound_kp : kp.
    Lemma check_generalisation_kp e x : forall g, kp (check_generalisation cfg snap e x g).
    Proof. induction x as [s c k|s c l IHl r IHr fv bv]; intros g; cbn [check_generalisation]; t. Qed.
    Lemma add_compositions_kp e h gs : forall acc, kp (add_compositions cfg snap e h gs acc).
    Proof. induction gs as [|g gs IH]; intros acc; cbn [add_compositions]; t. Qed.
    Hint Resolve check_generalisation_kp add_compositions_kp : kp.
    Lemma find_generalisations_kp e x : kp (find_generalisations cfg snap e x).
    Proof. induction x as [s c k|s c l IHl r IHr fv bv]; cbn [find_generalisations]; t. Qed.
    Hint Resolve find_generalisations_kp : kp.
    Lemma equivalence_set_kp e c : kp (equivalence_set cfg snap e c).
    Proof. unfold equivalence_set. t. Qed.
    Lemma composition_concept_kp e l r : kp (composition_concept cfg snap e l r).
    Proof. unfold composition_concept. t. Qed.
    Lemma shuffle_kp A (l : list A) : kp (shuffle cfg l).
    Proof. unfold shuffle; t. Qed.
    Hint Resolve equivalence_set_kp composition_concept_kp shuffle_kp : kp.

    Lemma display_joint_kp e l r : P e -> kp (display_joint o e l r).
    Proof. intros. unfold display_joint. t. Qed.
    Hint Resolve display_joint_kp : kp.
    Lemma join_kp e l r : P e -> kp (join o e l r).
    Proof. intros. unfold join. t. Qed.
    Hint Resolve join_kp : kp.
    Lemma combine_ast_kp e l r : P e -> kp (combine_ast cfg snap o e l r).
    Proof. intros. unfold combine_ast. t. Qed.
    Hint Resolve combine_ast_kp : kp.
    Lemma contract_pair_kp e l r : P e -> kp (contract_pair cfg snap rf o e l r).
    Proof. intros. unfold contract_pair. t. Qed.
    Hint Resolve contract_pair_kp : kp.
    Lemma substitute_kp e t m : P e -> kp (substitute cfg snap rf o e t m).
    Proof. intros. induction t as [s c k|s c l IHl r IHr fv bv]; cbn [substitute]; t. Qed.
    Hint Resolve substitute_kp : kp.
    Lemma concrete_ast_kp e cc : P e -> kp (concrete_ast cfg snap o e cc).
    Proof. intros. unfold concrete_ast. t. Qed.
    Hint Resolve concrete_ast_kp : kp.
    Lemma get_associativity_kp e x : P e -> kp (get_associativity cfg snap o e x).
    Proof. intros. unfold get_associativity. t. Qed.
    Lemma expand_kp e x : P e -> kp (expand cfg snap o e x).
    Proof. intros. unfold expand. t. Qed.
    Lemma normal_form_kp e x w : P e -> kp (normal_form o e x w).
    Proof. intros. unfold normal_form. t. Qed.
    Lemma recursively_reduce_kp e x : P e -> kp (recursively_reduce o e x).
    Proof. intros. unfold recursively_reduce. t. Qed.
    Hint Resolve recursively_reduce_kp : kp.
    Lemma determine_evidence_kp e l r : P e -> kp (determine_evidence o e l r).
    Proof. intros. unfold determine_evidence. t. Qed.
    Lemma determine_reduction_truth_kp e l r : P e -> kp (determine_reduction_truth o e l r).
    Proof. intros. unfold determine_reduction_truth. t. Qed.
    Hint Resolve determine_reduction_truth_kp : kp.
    Lemma compare_one_kp e h x : P e -> Hd h -> kp (compare_one cfg snap o e h x).
    Proof. intros. unfold compare_one. t. Qed.
    Hint Resolve compare_one_kp : kp.
    Lemma compare_kp e a b : P e -> kp (Search.compare cfg snap o e a b).
    Proof. intros. unfold Search.compare. t. Qed.
    Hint Resolve compare_kp : kp.
    Lemma right_branch_kp e l rl rr : P e -> kp (reduce_by_expanded_right_branch cfg snap o e l rl rr).
    Proof. intros. unfold reduce_by_expanded_right_branch. t. Qed.
    Hint Resolve right_branch_kp : kp.
    Lemma find_example_kp e g ts : P e -> kp (find_example o e g ts).
    Proof. intros. unfold find_example. t. Qed.
    Hint Resolve find_example_kp : kp.
    Lemma half_generalisation_kp e g m eqs h : P e -> kp (half_generalisation cfg snap o e g m eqs h).
    Proof. intros. unfold half_generalisation. t. Qed.
    Hint Resolve half_generalisation_kp : kp.
    Lemma example_of_both_kp e l r el er : P e -> kp (example_of_both cfg snap rf o e l r el er).
    Proof. intros. unfold example_of_both. t. Qed.
    Hint Resolve example_of_both_kp : kp.
    Lemma branched_examples_kp R e l r eqs (k : ex_subs -> SM (option R)) :
      P e -> (forall x, kp (k x)) -> kp (branched_examples cfg snap rf o e l r eqs k).
    Proof. intros He K. unfold branched_examples. t. Qed.
    Lemma find_examples_kp R e g eqs (k : ex_subs -> SM (option R)) :
      P e -> (forall x, kp (k x)) -> kp (find_examples cfg snap rf o e g eqs k).
    Proof. intros He K. unfold find_examples. pose proof branched_examples_kp. t. Qed.
    Lemma inferred_kp e x : P e -> kp (find_examples_of_inferred_reduction cfg snap rf o e x).
    Proof. intros. unfold find_examples_of_inferred_reduction. t. Qed.
    Hint Resolve inferred_kp : kp.
    Lemma infer_reduction_kp e m : P e -> kp (infer_reduction cfg snap rf o e m).
    Proof.
      intros He. unfold infer_reduction. apply kp_and_then; [t|intros imp]. apply kp_or_else; [t|].
      intros s0 b s' HJ E. apply sb in E. destruct E as (ci & s1 & Ec & E). injection Ec as Ec <-.
      destruct ci as [rr|].
      - injection E as _ <-. split; [exact HJ|]. apply (l_refl _ _ _ _ _ _ _ _ L), HJ.
      - apply sb in E. destruct E as (x & s1 & E1 & E). apply sb in E. destruct E as (rr & s2 & E2 & E).
        apply sb in E. destruct E as ([] & s3 & E3 & [= _ <-]). injection E3 as <-.
        destruct (kp_to_ast _ O _ _ He _ _ _ HJ E1) as [J1 I1].
        destruct (inferred_kp _ _ He _ _ _ J1 E2) as [J2 I2].
        destruct (l_inf _ _ _ _ _ _ _ _ L _ _ _ _ _ _ _ _ He Ec HJ J1 I1 J2 I2 E1 E2) as [J3 I3].
        split; [exact J3|]. eapply (l_trans _ _ _ _ _ _ _ _ L); [exact I1|].
        eapply (l_trans _ _ _ _ _ _ _ _ L); eassumption.
    Qed.
    Hint Resolve infer_reduction_kp : kp.
    Lemma reduce_concept_kp e c : P e -> kp (reduce_concept cfg snap rf o e c).
    Proof. intros. unfold reduce_concept. t. Qed.
    Hint Resolve reduce_concept_kp : kp.
    Lemma left_branch_kp e ll lr r : P e -> kp (reduce_by_expanded_left_branch cfg snap o e ll lr r).
    Proof. intros. unfold reduce_by_expanded_left_branch. t. Qed.
    Hint Resolve left_branch_kp : kp.
    Lemma try_rule_kp e h x g : P e -> Hd h -> kp (try_rule cfg snap rf o e h x g).
    Proof.
      intros He Hh s r s' HJ E. unfold try_rule in E. apply sb in E. destruct E as (vm & s1 & E1 & E).
      destruct (check_generalisation_kp _ _ _ _ _ _ HJ E1) as [J1 I1]. destruct vm as [[|p m]|].
      - injection E as _ <-. auto.
      - apply sb in E. destruct E as (e0 & s2 & E2 & E).
        destruct (l_spawn _ _ _ _ _ _ _ _ L _ _ _ _ _ _ He Hh (WidensSame _) J1 E2) as (He' & J2 & I2).
        assert (M : e_mask e0 = e_mask e).
        { unfold spawn in E2. apply sb in E2. destruct E2 as (sy & s3 & _ & [= <- _]). reflexivity. }
        assert (J3 : J s' /\ I s2 s').
        { destruct (ml_push (e_mask e0) (p :: m)) as [ml|] eqn:U.
          - pose proof (l_mask _ _ _ _ _ _ _ _ L _ _ _ _ _ _ _ _ He He' M E1 U) as Hm.
            cbn [opt_then] in E. cbv zeta in E. revert E.
            assert (K : kp (and_then (reduce_concept cfg snap rf o (with_mask e0 ml) g) (fun '(t', reason) =>
              sbind (substitute cfg snap rf o (with_mask e0 ml) t' (p :: m)) (fun t'' =>
              sbind (o_to_ast o e g) (fun gt => sret (Some (t'', RRule gt (p :: m) reason))))))) by t.
            intros E. exact (K _ _ _ J2 E).
          - injection E as _ <-. split; [exact J2|]. apply (l_refl _ _ _ _ _ _ _ _ L), J2. }
        destruct J3 as [J3 I3]. split; [exact J3|]. eapply (l_trans _ _ _ _ _ _ _ _ L); [exact I1|].
        eapply (l_trans _ _ _ _ _ _ _ _ L); eassumption.
      - injection E as _ <-. auto.
    Qed.
    Hint Resolve try_rule_kp : kp.
    Lemma partial_reason_kp p : kp (partial_reason cfg p).
    Proof. unfold partial_reason. t. Qed.
    Hint Resolve partial_reason_kp : kp.
    Lemma recursively_reduce_pair_kp e l r : P e -> kp (recursively_reduce_pair cfg snap rf o e l r).
    Proof. intros. unfold recursively_reduce_pair. t. Qed.
    Hint Resolve recursively_reduce_pair_kp : kp.
    Lemma reduce_pair_kp e l r : P e -> kp (reduce_pair cfg snap rf o e l r).
    Proof. intros. unfold reduce_pair. t. Qed.
    Hint Resolve reduce_pair_kp : kp.
    Lemma reduce_kp e x : P e -> kp (reduce cfg snap rf o e x).
    Proof.
      intros He s r s' HJ E0. pose proof E0 as E. unfold reduce in E. apply sb in E. destruct E as (ca & s1 & Ec & E).
      injection Ec as Ec <-. destruct ca as [rr|].
      { injection E as _ <-. split; [exact HJ|]. apply (l_refl _ _ _ _ _ _ _ _ L), HJ. }
      apply sb in E. destruct E as (ty & s1 & E1 & E).
      assert (K1 : kp (match t_concept x with Some c => concrete_type cfg snap e c | None => sret None end)) by t.
      destruct (K1 _ _ _ HJ E1) as [J1 I1]. destruct ty as [ty|].
      { injection E as _ <-. auto. }
      apply sb in E. destruct E as (rr & s2 & E2 & E).
      assert (K2 : kp (or_else (opt_then (t_concept x) (reduce_concept cfg snap rf o e))
                    (opt_then (t_exp x) (fun '(l, r) => reduce_pair cfg snap rf o e l r)))) by t.
      destruct (K2 _ _ _ J1 E2) as [J2 I2]. apply sb in E. destruct E as ([] & s3 & E3 & [= -> ->]).
      eapply (l_red _ _ _ _ _ _ _ _ L n); try eassumption.
      eapply (l_trans _ _ _ _ _ _ _ _ L); eassumption.
    Qed.
    Lemma to_ast_kp e c : P e -> kp (to_ast cfg snap rf o e c).
    Proof.
      intros He s r s' HJ E0. pose proof E0 as E. unfold to_ast in E.
      destruct (ml_get (e_mask e) c) as [x|] eqn:Em.
      { injection E as _ <-. split; [exact HJ|]. apply (l_refl _ _ _ _ _ _ _ _ L), HJ. }
      apply sb in E. destruct E as (ca & s1 & Ec & E). injection Ec as Ec <-. destruct ca as [x|].
      { injection E as _ <-. split; [exact HJ|]. apply (l_refl _ _ _ _ _ _ _ _ L), HJ. }
      apply sb in E. destruct E as (m & s1 & E1 & E). unfold read, slift in E1. apply obind_ok in E1.
      destruct E1 as (m' & E1 & [= -> <-]). apply sb in E. destruct E as (lab & s2 & E2 & E).
      assert (K1 : kp (match m_string m with Some s => sret (Some (format_string s))
                       | None => slift (get_label cfg snap (e_delta e) rf c) end)) by t.
      destruct (K1 _ _ _ HJ E2) as [J1 I1]. apply sb in E. destruct E as (x & s3 & E3 & E).
      assert (K2 : kp (match lab with
               | Some s => slift (bind_concept_to_syntax cfg snap (e_delta e) (from_text s) c)
               | None =>
                 match m_composition m with
                 | Some (l, r) => sbind (o_to_ast o e l) (fun lt => sbind (o_to_ast o e r) (fun rt =>
                                    combine_ast cfg snap o e lt rt))
                 | None => sret (new_syntax_from_leaf_concept m)
                 end
               end)) by t.
      destruct (K2 _ _ _ J1 E3) as [J2 I2]. apply sb in E. destruct E as ([] & s4 & E4 & [= -> ->]).
      eapply (l_syn _ _ _ _ _ _ _ _ L n); try eassumption.
      - eapply (l_trans _ _ _ _ _ _ _ _ L); eassumption.
      - intros n' e' c' s0 t' s5 Ln Pe' J0 E0'. exact (proj1 (kp_to_ast _ (OB _ Ln) _ _ Pe' _ _ _ J0 E0')).
    Qed.
    Lemma step_kp : ops_kp (step cfg snap rf o).
    Proof.
      constructor; intros; cbn [Search.step o_reduce o_to_ast o_assoc o_expand o_nf o_evidence o_examples].
      - apply reduce_kp. assumption.
      - apply to_ast_kp. assumption.
      - apply get_associativity_kp. assumption.
      - apply expand_kp. assumption.
      - apply normal_form_kp. assumption.
      - apply determine_evidence_kp. assumption.
      - apply find_examples_kp; assumption.
    Qed.
  End Steps.
  Lemma search_kp n : ops_kp (search cfg snap rf n).
  Proof.
    assert (H : forall m, m <= n -> ops_kp (search cfg snap rf m)); [|apply H; constructor].
    induction n as [|n IH]; intros m Lm.
    - inversion Lm; subst. constructor; intros; apply kp_fuel.
    - apply Nat.le_succ_r in Lm. destruct Lm as [Lm| ->]; [apply IH, Lm|]. cbn [search]. apply step_kp. exact IH.
  Qed.
  Lemma search_kp_up_to n : forall m, m <= n -> ops_kp (search cfg snap rf m).
  Proof. intros m _. apply search_kp. Qed.
End Laws.
