(** C12, C13, C15-C17, C22: property theorems about the store, for every history of commands.

    [reachable b c]: the context [c] arises from the context of Context::new by any number
    of commands, each executed with its own hash iteration orders and step bound, in a debug
    ([b = true]) or release ([b = false]) build; see [C12_contexts_are_reachable]. *)
From Verif Require Import Start Snapshot StoreSpec RangeFacts History Sim SimRead Steps Keep Links
  Meaning StoreLaws NameSpec MapFacts Pending Sample.
From Coq Require Import String List.
Import ListNotations.
Local Open Scope string_scope.

(** Histories of commands after [Context::new]. *)
Theorem C12_contexts_are_reachable :
  forall (cfg : config) (fuel : nat) (cmds : list text) (c0 c : ctx) (rs : list text),
    fair cfg -> new_context cfg fuel = Ok c0 -> run_session cfg fuel cmds c0 = Ok (rs, c) ->
    reachable (dbg cfg) c.
Proof. exact contexts_are_reachable. Qed.
Print Assumptions C12_contexts_are_reachable.

(** ** C12 *)
Theorem C12_knowledge_is_append_only :
  forall (b : bool) (cfg : config) (fuel : nat) (t r : text) (c c' : ctx),
    reachable b c -> fair cfg -> execute cfg fuel t c = Ok (r, c') ->
    extends (c_snap c) (c_snap c').
Proof. exact execute_extends. Qed.
Print Assumptions C12_knowledge_is_append_only.

Theorem C12_variables_stay_variables :
  forall (b : bool) (cfg : config) (fuel : nat) (t r : text) (c c' : ctx),
    reachable b c -> fair cfg -> execute cfg fuel t c = Ok (r, c') ->
    forall n kind, kind <> Constant -> leaf_variable (c_snap c) n kind -> leaf_variable (c_snap c') n kind.
Proof. exact execute_variables. Qed.
Print Assumptions C12_variables_stay_variables.

Theorem C12_concepts_keep_their_numbers :
  forall (b : bool) (c : ctx), reachable b c -> self_numbered (c_snap c).
Proof. exact reachable_numbers. Qed.
Print Assumptions C12_concepts_keep_their_numbers.

Example C12_example :
  exists c, reachable true c /\ has_text (c_snap c) 80 (txt "a") /\ built_in (c_snap c) 8 CReduction /\
            leaf_variable (c_snap c) 50 FreeVariable.
Proof.
  destruct sample_exists as (c & _ & R & E). exists c. rewrite E. split; [exact R|].
  split; [|split]; repeat eexists.
Qed.

(** ** C13 *)
Theorem C13_reductions_are_listed :
  forall (b : bool) (c : ctx), reachable b c -> reductions_are_listed (c_snap c).
Proof. exact reachable_listed. Qed.
Print Assumptions C13_reductions_are_listed.

Example C13_example :
  exists c, reachable true c /\ reduces (c_snap c) 85 91 /\ lists_reduction_from (c_snap c) 91 85.
Proof.
  destruct sample_exists as (c & _ & R & E). exists c. rewrite E. split; [exact R|]. split.
  - repeat eexists.
  - eexists. split; [reflexivity|]. left. reflexivity.
Qed.

(** ** C15.  Full statement: [compositions_are_listed], [listed_compositions_are_real] and
    [compositions_are_unique] for every [reachable b c].  That is refuted (see
    [C15_composition_links_refuted]); proved here for the histories in which no command
    replaces or removes a composition and, in release builds, no command composes an
    existing concept. *)
Theorem C15_composition_links_agree_partial :
  forall (b : bool) (c : ctx),
    reachable_with b (links_safe b) c ->
    compositions_are_listed (c_snap c) /\ listed_compositions_are_real (c_snap c) /\
    compositions_are_unique (c_snap c).
Proof. exact links_agree_reachable. Qed.
Print Assumptions C15_composition_links_agree_partial.

Example C15_example :
  reachable_with true (links_safe true) small /\ composed (c_snap small) 44 47 50 /\
  lists_left_composition (c_snap small) 47 50 44 /\ lists_right_composition (c_snap small) 50 47 44.
Proof.
  split; [exact small_reachable|]. split; [repeat eexists|].
  split; eexists; split; reflexivity.
Qed.

(** ** C16, first half: built-in concepts stay the same concepts, get neither a reduction nor a
    composition, and nothing else becomes built in.  The second half (they stay reachable
    under their own names) is refuted, see [C16_builtin_names_refuted]. *)
Theorem C16_built_in_concepts_stay_built_in_partial :
  forall (b : bool) (c : ctx), reachable b c ->
    forall cc, exists n, built_in (c_snap c) n cc /\ built_in (c_snap base_context) n cc /\
      (forall n', built_in (c_snap c) n' cc -> n' = n) /\
      (forall r, ~ reduces (c_snap c) n r) /\ (forall l r, ~ composed (c_snap c) n l r) /\
      concrete_concept_id cfg0 (c_snap c) delta_default cc = Ok (Some (Committed n)).
Proof. exact reachable_built_in. Qed.
Print Assumptions C16_built_in_concepts_stay_built_in_partial.

Example C16_example :
  exists c, reachable true c /\ built_in (c_snap c) 5 CDefine /\ size (c_snap c) = 92.
Proof.
  destruct sample_exists as (c & _ & R & E). exists c. rewrite E. split; [exact R|].
  split; repeat eexists.
Qed.

(** ** C17.  [run_command] is the command up to the commit, [execute] the whole command;
    [renamed] gives the ids after the commit. *)
Theorem C17_readings_survive_the_commit :
  forall (b : bool) (cfg : config) (fuel : nat) (t r : text) (c c1 c' : ctx) (z : zres text),
    reachable b c -> fair cfg ->
    run_command cfg fuel t c = Ok (z, c1) -> execute cfg fuel t c = Ok (r, c') ->
    forall id m, read_concept cfg (c_snap c) (c_delta c1) id = Ok m ->
      exists m', read_concept cfg (c_snap c') delta_default (renamed (c_snap c) id) = Ok m' /\
                 same_reading (c_snap c) m m'.
Proof. exact readings_survive. Qed.
Print Assumptions C17_readings_survive_the_commit.

Theorem C17_normal_forms_survive_the_commit :
  forall (b : bool) (cfg : config) (fuel : nat) (t r : text) (c c1 c' : ctx) (z : zres text),
    reachable b c -> fair cfg ->
    run_command cfg fuel t c = Ok (z, c1) -> execute cfg fuel t c = Ok (r, c') ->
    forall n id v, get_normal_form cfg (c_snap c) (c_delta c1) n id = Ok v ->
      get_normal_form cfg (c_snap c') delta_default n (renamed (c_snap c) id) =
      Ok (option_map (renamed (c_snap c)) v).
Proof. exact normal_forms_survive. Qed.
Print Assumptions C17_normal_forms_survive_the_commit.

Theorem C17_strings_and_built_ins_survive_the_commit :
  forall (b : bool) (cfg : config) (fuel : nat) (t r : text) (c c1 c' : ctx) (z : zres text),
    reachable b c -> fair cfg ->
    run_command cfg fuel t c = Ok (z, c1) -> execute cfg fuel t c = Ok (r, c') ->
    (forall s v, get_string_concept cfg (c_snap c) (c_delta c1) s = Ok v ->
       get_string_concept cfg (c_snap c') delta_default s = Ok (option_map (renamed (c_snap c)) v)) /\
    (forall cc v, concrete_concept_id cfg (c_snap c) (c_delta c1) cc = Ok v ->
       concrete_concept_id cfg (c_snap c') delta_default cc = Ok (option_map (renamed (c_snap c)) v)).
Proof. exact strings_survive. Qed.
Print Assumptions C17_strings_and_built_ins_survive_the_commit.

(** Labels.  (A label cannot be read while a change of composition is pending: looking for
    [label_of] reads every pending concept, and the source panics on such a change; see
    [label_reads_keep_hands].) *)
Theorem C17_labels_survive_the_commit :
  forall (b : bool) (cfg : config) (fuel : nat) (t r : text) (c c1 c' : ctx) (z : zres text),
    reachable b c -> fair cfg ->
    run_command cfg fuel t c = Ok (z, c1) -> execute cfg fuel t c = Ok (r, c') ->
    forall n id v, get_label cfg (c_snap c) (c_delta c1) n id = Ok v ->
      get_label cfg (c_snap c') delta_default n (renamed (c_snap c) id) = Ok v.
Proof. exact all_labels_survive. Qed.
Print Assumptions C17_labels_survive_the_commit.

(** Inverse labels.  Full statement: without the hypothesis that the name is not shared.  For a
    shared name the two lookups walk hash sets of different contents, so that which of its
    bearers they find is left to the hash order; both find some bearer or neither does. *)
Theorem C17_names_survive_the_commit_partial :
  forall (b : bool) (cfg : config) (fuel : nat) (t r : text) (c c1 c' : ctx) (z : zres text),
    reachable b c -> fair cfg ->
    run_command cfg fuel t c = Ok (z, c1) -> execute cfg fuel t c = Ok (r, c') ->
    forall n w v, concept_from_label cfg (c_snap c) (c_delta c1) n w = Ok v ->
      (forall x, v = Some x ->
         exists m, renamed (c_snap c) x = Committed m /\ found_under (c_snap c') w m) /\
      (v = None -> forall m, ~ found_under (c_snap c') w m) /\
      forall cfg' n' v', fair cfg' -> concept_from_label cfg' (c_snap c') delta_default n' w = Ok v' ->
        (v = None <-> v' = None) /\
        ((forall x y, found_under (c_snap c') w x -> found_under (c_snap c') w y -> x = y) ->
         v' = option_map (renamed (c_snap c)) v).
Proof. exact names_answered. Qed.
Print Assumptions C17_names_survive_the_commit_partial.

Example C17_example :
  reachable true base_context /\
  exists z c1 r c', run_command cfg0 fuel0 pending_command base_context = Ok (z, c1) /\
    execute cfg0 fuel0 pending_command base_context = Ok (r, c') /\
    get_label cfg0 (c_snap base_context) (c_delta c1) 10 (Uncommitted 2) = Ok (Some (txt "b")) /\
    exists m, read_concept cfg0 (c_snap base_context) (c_delta c1) (Uncommitted 9) = Ok m /\
      m_composition m = Some (Uncommitted 2, Uncommitted 5).
Proof.
  split; [apply reach_base|]. destruct pending_exists as (z & c1 & r & c' & H1 & H2 & _ & H). exists z, c1, r, c'. auto.
Qed.
Definition pending_name_checks (r : outcome (zres text * ctx)) (r' : outcome (text * ctx)) : bool :=
  match r, r' with
  | Ok (_, c1), Ok (_, c') =>
    match concept_from_label cfg0 (c_snap base_context) (c_delta c1) 10 (txt "b") with
    | Ok (Some x) => cid_eqb x (Uncommitted 2) | _ => false end &&
    match concept_from_label cfg0 (c_snap c') delta_default 10 (txt "b") with
    | Ok (Some x) => cid_eqb x (renamed (c_snap base_context) (Uncommitted 2)) | _ => false end &&
    lone_name (c_snap c') (txt "b")
  | _, _ => false
  end.
Lemma pending_name_checked :
  pending_name_checks (run_command cfg0 fuel0 pending_command base_context)
    (execute cfg0 fuel0 pending_command base_context) = true.
Proof. vm_compute. reflexivity. Qed.
Lemma pending_name_meaning u v :
  pending_name_checks u v = true ->
  exists z c1 r c', u = Ok (z, c1) /\ v = Ok (r, c') /\
    concept_from_label cfg0 (c_snap base_context) (c_delta c1) 10 (txt "b") = Ok (Some (Uncommitted 2)) /\
    concept_from_label cfg0 (c_snap c') delta_default 10 (txt "b") =
      Ok (Some (renamed (c_snap base_context) (Uncommitted 2))) /\
    forall x y, found_under (c_snap c') (txt "b") x -> found_under (c_snap c') (txt "b") y -> x = y.
Proof.
  intros K. unfold pending_name_checks in K.
  destruct u as [[z c1]| | |]; try discriminate K. destruct v as [[r c']| | |]; try discriminate K.
  exists z, c1, r, c'. split; [reflexivity|]. split; [reflexivity|].
  apply andb_prop in K. destruct K as [K K3]. apply andb_prop in K. destruct K as [K1 K2].
  destruct (concept_from_label cfg0 (c_snap base_context) _ _ _) as [[x|]| | |]; try discriminate K1.
  destruct (concept_from_label cfg0 (c_snap c') _ _ _) as [[y|]| | |]; try discriminate K2.
  split; [destruct (cid_eqb_spec x (Uncommitted 2)); [congruence|discriminate]|].
  split; [|apply lone_name_ok, K3].
  destruct (cid_eqb_spec y (renamed (c_snap base_context) (Uncommitted 2))); [congruence|discriminate].
Qed.
(** The name [b], given by the command itself: found before and after the commit, and not shared. *)
Example C17_names_example :
  reachable true base_context /\
  exists z c1 r c', run_command cfg0 fuel0 pending_command base_context = Ok (z, c1) /\
    execute cfg0 fuel0 pending_command base_context = Ok (r, c') /\
    concept_from_label cfg0 (c_snap base_context) (c_delta c1) 10 (txt "b") = Ok (Some (Uncommitted 2)) /\
    concept_from_label cfg0 (c_snap c') delta_default 10 (txt "b") =
      Ok (Some (renamed (c_snap base_context) (Uncommitted 2))) /\
    forall x y, found_under (c_snap c') (txt "b") x -> found_under (c_snap c') (txt "b") y -> x = y.
Proof. split; [apply reach_base|exact (pending_name_meaning _ _ pending_name_checked)]. Qed.

(** ** C22 *)
Theorem C22_no_concept_is_part_of_itself :
  forall (b : bool) (c : ctx), reachable b c -> compositions_are_well_founded (c_snap c).
Proof. exact reachable_well_founded. Qed.
Print Assumptions C22_no_concept_is_part_of_itself.

Example C22_example :
  exists c, reachable true c /\ part (c_snap c) 85 82.
Proof.
  destruct sample_exists as (c & _ & R & E). exists c. rewrite E. split; [exact R|].
  exists 85, 88. split; [repeat eexists|left; reflexivity].
Qed.
