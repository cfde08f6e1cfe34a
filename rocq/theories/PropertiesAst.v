(** C30 (matching of expressions against patterns), C31-C34: property theorems about
    variable assignments, masks, substitution and the variables of an expression. *)
From Verif Require Import Ast AstSpec AstFacts MapFacts.
From Coq Require Import String List Bool.
Import ListNotations.
Local Open Scope string_scope.

(** Sample trees for the examples. *)
Definition leaf (s : string) (n : nat) : tree := TLeaf (txt s) (Some (Committed n)) LConstant.
Definition var (s : string) (n : nat) : tree := TLeaf (txt s) (Some (Committed n)) LVariable.
Definition quant : tree := TLeaf (txt "exists_such_that") (Some (Committed 9)) LQuantifier.
Definition pair (s : string) (l r : tree) : tree := branch (Some (txt s)) None l r.

(** ** C31 *)
Theorem C31_merging_succeeds_exactly_on_agreement :
  forall a b : substitutions,
    functional a -> functional b ->
    ((exists m, consistent_merge key_eqb a b = Some m) <-> agree a b).
Proof. exact (consistent_merge_iff key_eqb key_eqb_spec). Qed.
Print Assumptions C31_merging_succeeds_exactly_on_agreement.

Theorem C31_merging_gives_the_union :
  forall a b m : substitutions,
    functional a -> functional b -> consistent_merge key_eqb a b = Some m -> union_of a b m.
Proof. exact (consistent_merge_union key_eqb key_eqb_spec). Qed.
Print Assumptions C31_merging_gives_the_union.

Theorem C31_merging_is_symmetric :
  forall a b : substitutions,
    functional a -> functional b ->
    match consistent_merge key_eqb a b, consistent_merge key_eqb b a with
    | Some m, Some m' => same_assignment m m'
    | None, None => True
    | _, _ => False
    end.
Proof. exact (consistent_merge_comm key_eqb key_eqb_spec). Qed.
Print Assumptions C31_merging_is_symmetric.

(** The same for the assignments of variable concepts. *)
Theorem C31_merging_masks_succeeds_exactly_on_agreement :
  forall a b : mask,
    functional a -> functional b ->
    ((exists m, consistent_merge cid_eqb a b = Some m) <-> agree a b).
Proof. exact (consistent_merge_iff cid_eqb cid_eqb_spec). Qed.
Print Assumptions C31_merging_masks_succeeds_exactly_on_agreement.

Theorem C31_merging_masks_gives_the_union :
  forall a b m : mask,
    functional a -> functional b -> consistent_merge cid_eqb a b = Some m -> union_of a b m.
Proof. exact (consistent_merge_union cid_eqb cid_eqb_spec). Qed.
Print Assumptions C31_merging_masks_gives_the_union.

Theorem C31_merging_masks_is_symmetric :
  forall a b : mask,
    functional a -> functional b ->
    match consistent_merge cid_eqb a b, consistent_merge cid_eqb b a with
    | Some m, Some m' => same_assignment m m'
    | None, None => True
    | _, _ => False
    end.
Proof. exact (consistent_merge_comm cid_eqb cid_eqb_spec). Qed.
Print Assumptions C31_merging_masks_is_symmetric.

Definition assign_xy : substitutions := [(t_key (var "_x_" 1), leaf "a" 5); (t_key (var "_y_" 2), leaf "b" 6)].
Definition assign_x : substitutions := [(t_key (var "_x_" 1), leaf "a" 5)].
Definition assign_x' : substitutions := [(t_key (var "_x_" 1), leaf "c" 7)].
Example C31_example :
  functional assign_xy /\ functional assign_x /\ functional assign_x' /\
  (exists m, consistent_merge key_eqb assign_xy assign_x = Some m /\ List.length m = 2) /\
  consistent_merge key_eqb assign_xy assign_x' = None.
Proof.
  assert (F1 : functional assign_x) by apply functional_single.
  assert (F2 : functional assign_x') by apply functional_single.
  assert (F : functional assign_xy).
  { constructor; [|apply functional_single]. intros [H|[]]. discriminate. }
  repeat (split; [assumption|]). split; [eexists; split; vm_compute; reflexivity|].
  vm_compute. reflexivity.
Qed.

(** ** C30, first half: matching an expression against a pattern

    [check_example e p] is how the code decides that [e] has the form of [p]. *)
Theorem C30_matching_is_sound :
  forall e p s,
    check_example e p = Some s ->
    functional (es_gen s) /\ functional (es_ex s) /\ instance (es_gen s) (es_ex s) e p.
Proof. exact check_example_correct. Qed.
Print Assumptions C30_matching_is_sound.

Theorem C30_matching_is_complete :
  forall gen ex e p,
    functional gen -> functional ex -> instance gen ex e p ->
    exists s, check_example e p = Some s /\
      (forall k v, maps_to (es_gen s) k v -> exists w, maps_to gen k w /\ same_expr w v) /\
      (forall k v, maps_to (es_ex s) k v -> exists w, maps_to ex k w /\ same_expr w v).
Proof. exact check_example_complete. Qed.
Print Assumptions C30_matching_is_complete.

Definition sample_pattern : tree :=
  pair "_x_ + _x_" (var "_x_" 1) (pair "+ _x_" (leaf "+" 3) (var "_x_" 1)).
Definition sample_instance : tree :=
  pair "a + a" (leaf "a" 5) (pair "+ a" (leaf "+" 3) (leaf "a" 5)).
Definition sample_noninstance : tree :=
  pair "a + b" (leaf "a" 5) (pair "+ b" (leaf "+" 3) (leaf "b" 6)).
Example C30_example :
  check_example sample_instance sample_pattern = Some (ES assign_x []) /\
  instance assign_x [] sample_instance sample_pattern /\
  check_example sample_noninstance sample_pattern = None.
Proof.
  assert (H : check_example sample_instance sample_pattern = Some (ES assign_x []))
    by (vm_compute; reflexivity).
  split; [exact H|]. split; [|vm_compute; reflexivity].
  exact (check_example_sound _ _ _ H).
Qed.

(** ** C32 *)
(** A lookup returns the innermost binding. *)
Theorem C32_innermost_binding_wins :
  forall (layers : mask_list) c t,
    ml_get layers c = Some t <->
    exists inner m outer, layers = (inner ++ m :: outer)%list /\ aget cid_eqb c m = Some t /\
                          (forall m', In m' inner -> aget cid_eqb c m' = None).
Proof. exact ml_get_spec. Qed.
Print Assumptions C32_innermost_binding_wins.

(** A layer is refused exactly when one that says the same is already there; otherwise it
    becomes the innermost one and removing it restores the previous stack. *)
Theorem C32_push_adds_a_new_innermost_layer :
  forall (layers : mask_list) m,
    functional m -> (forall l, In l layers -> functional l) ->
    ml_push layers m = None /\ (exists l, In l layers /\ same_assignment l m)
    \/ ml_push layers m = Some (m :: layers) /\ ~ (exists l, In l layers /\ same_assignment l m).
Proof. exact ml_push_spec. Qed.
Print Assumptions C32_push_adds_a_new_innermost_layer.

Theorem C32_dropping_restores :
  forall (layers : mask_list) m layers',
    layers <> [] -> ml_push layers m = Some layers' -> ml_tail layers' = Some layers.
Proof. exact ml_push_tail. Qed.
Print Assumptions C32_dropping_restores.

Definition mask_a : mask := [(Committed 1, leaf "a" 5)].
Definition mask_b : mask := [(Committed 1, leaf "b" 6); (Committed 2, leaf "c" 7)].
Example C32_example :
  functional mask_a /\ functional mask_b /\
  ml_push [mask_b] mask_a = Some [mask_a; mask_b] /\
  ml_get [mask_a; mask_b] (Committed 1) = Some (leaf "a" 5) /\
  ml_get [mask_a; mask_b] (Committed 2) = Some (leaf "c" 7) /\
  ml_push [mask_a; mask_b] mask_b = None.
Proof.
  split; [apply functional_single|]. split.
  - constructor; [intros [H|[]]; discriminate|apply functional_single].
  - vm_compute. auto.
Qed.

(** ** C33 *)
Theorem C33_substitution_replaces_outermost_mapped_parts :
  forall subs t u,
    functional subs -> (subst_keys t subs = u <-> replaced subs t u).
Proof. exact subst_keys_iff. Qed.
Print Assumptions C33_substitution_replaces_outermost_mapped_parts.

Theorem C33_substitution_without_mapped_parts_is_the_identity :
  forall subs t, (forall p, part_of p t -> ~ mapped subs p) -> subst_keys t subs = t.
Proof. exact subst_keys_identity. Qed.
Print Assumptions C33_substitution_without_mapped_parts_is_the_identity.

Example C33_example :
  functional assign_x /\
  subst_keys sample_pattern assign_x =
    TBranch (Some (txt "_x_ + _x_")) None (leaf "a" 5)
      (TBranch (Some (txt "+ _x_")) None (leaf "+" 3) (leaf "a" 5)
         [t_key (var "_x_" 1)] [])
      [t_key (var "_x_" 1)] [] /\
  (forall p, part_of p sample_instance -> ~ mapped assign_x p).
Proof.
  split; [apply functional_single|]. split; [vm_compute; reflexivity|].
  intros p H [E|[]]. revert E.
  assert (N : forall q, part_of q sample_instance -> t_concept q <> Some (Committed 1)).
  { intros q Hq. vm_compute in Hq.
    repeat match goal with
           | G : part_of _ _ |- _ => inversion G; subst; clear G
           end; cbn; discriminate. }
  specialize (N p H). unfold t_key, var; cbn. intros E. injection E as _ E. congruence.
Qed.

(** ** C34 *)
(** The free variables recorded for an expression are exactly those that occur free. *)
Theorem C34_recorded_free_variables_are_exact :
  forall t, assembled t -> forall v, In v (recorded_free t) <-> occurs_free v t.
Proof. exact (fun t A => proj1 (assembled_vars t A)). Qed.
Print Assumptions C34_recorded_free_variables_are_exact.

(** The bound variables are exact unless a lone variable stands left of a part that binds
    it. *)
Theorem C34_recorded_bound_variables_are_exact_partial :
  forall t, assembled t -> no_capture t -> forall v, In v (recorded_bound t) <-> occurs_bound v t.
Proof. exact assembled_bound. Qed.
Print Assumptions C34_recorded_bound_variables_are_exact_partial.

(** In general every variable that occurs bound is recorded, and only variables that occur
    at all are. *)
Theorem C34_recorded_bound_variables_bracketed :
  forall t, assembled t -> forall v,
    (occurs_bound v t -> In v (recorded_bound t)) /\
    (In v (recorded_bound t) -> exists b, In (v, b) (occurrences t)).
Proof. exact assembled_bound_bracket. Qed.
Print Assumptions C34_recorded_bound_variables_bracketed.

(** ... and the full claim fails: in [_x_ (_x_ exists_such_that)] the variable is recorded
    both as free and as bound. *)
Theorem C34_bound_variables_refuted :
  exists t v, assembled t /\ In v (recorded_bound t) /\ In v (recorded_free t) /\
              ~ occurs_bound v t.
Proof.
  exists (pair "_x_ (_x_ exists_such_that)" (var "_x_" 1)
            (pair "_x_ exists_such_that" (var "_x_" 1) quant)), (t_key (var "_x_" 1)).
  split; [repeat constructor|]. split; [now left|]. split; [now left|].
  intros ([|? [|? [|]]] & y & E & N); cbn in E; try discriminate.
  apply N. injection E as <- _. now left.
Qed.
Print Assumptions C34_bound_variables_refuted.

Definition sample_quantified : tree :=
  pair "(_x_ exists_such_that) _x_ > _y_"
       (pair "_x_ exists_such_that" (var "_x_" 1) quant)
       (pair "_x_ > _y_" (var "_x_" 1) (pair "> _y_" (leaf ">" 4) (var "_y_" 2))).
Example C34_example :
  assembled sample_quantified /\ no_capture sample_quantified /\
  recorded_free sample_quantified = [t_key (var "_y_" 2)] /\
  recorded_bound sample_quantified = [t_key (var "_x_" 1)].
Proof.
  split; [repeat constructor|]. split; [|split; reflexivity].
  cbn. repeat split; intros ([|? [|? [|]]] & y & E & N); cbn in E; discriminate.
Qed.
