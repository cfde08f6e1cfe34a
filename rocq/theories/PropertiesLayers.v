(** C40: stacked layers of pending changes behave like one layer with all of them. *)
From Verif Require Import Snapshot LayerFacts Start.
From Coq Require Import String List Permutation.
Import ListNotations.
Local Open Scope string_scope.

(** Whatever is recorded, with new layers started at any points: if one layer accepts all
    of it, so does the stack, with the same ids for new concepts, and reading through the
    stack gives what reading through the one layer gives: concepts, built-in types,
    strings, the list of changes to apply, and the changed concepts (in an order that
    depends on the hash maps). *)
Theorem C40_layers_read_like_one_list_of_changes : forall ops ids flat,
  all_ops on_flat ops delta_default = Ok (ids, flat) ->
  exists stack,
    all_ops on_stack ops delta_default = Ok (ids, stack)
    /\ (forall cfg snap id, read_concept cfg snap stack id = read_concept cfg snap flat id)
    /\ (forall cfg snap id,
          maybe_read_concept cfg snap stack id = maybe_read_concept cfg snap flat id)
    /\ (forall cfg snap s,
          get_string_concept cfg snap stack s = get_string_concept cfg snap flat s)
    /\ delta_order stack = delta_order flat
    /\ (forall cfg, fair cfg ->
          Permutation (delta_iter_concepts cfg stack) (delta_iter_concepts cfg flat)).
Proof.
  intros ops ids flat E.
  destruct (alike_ops ops delta_default (new_layer 0) ids flat alike_default E)
    as (stack & l & S & -> & H).
  exists stack. split; [exact S|]. split; [|split; [|split; [|split]]].
  - intros cfg snap id. exact (alike_read cfg snap stack l H id).
  - intros cfg snap id. exact (alike_maybe_read cfg snap stack l H id).
  - intros cfg snap s. exact (alike_get_string cfg snap stack l H s).
  - exact (al_order stack l H).
  - intros cfg F. exact (alike_iter cfg stack l F H).
Qed.
Print Assumptions C40_layers_read_like_one_list_of_changes.

(** Any stack at all: the changes of a concept are those of the layers, lowest first, and
    likewise the changes to apply. *)
Theorem C40_changes_are_read_bottom_up : forall ls id,
  layers_concept ls id
  = (if existsb (mentions id) (bottom_up ls)
     then Some (flat_map (recorded id) (bottom_up ls)) else None)
  /\ layers_order ls = flat_map d_order (bottom_up ls).
Proof. intros ls id. split; [apply concept_of_stack|apply order_of_stack]. Qed.
Print Assumptions C40_changes_are_read_bottom_up.

(** A script with three layers that meets the hypothesis *)
Definition sample_ops : list op :=
  [Record_ (DNew NFreeVariable); Record_ (DNew (NString (txt "a"))); NewLayer;
   Record_ (DNew (NReducesTo (Uncommitted 0))); Record_ (DReduce (Uncommitted 1) (Create (Committed 2)));
   NewLayer; MakeUp NBoundVariable;
   Record_ (DReduce (Uncommitted 1) (Update (Committed 2) (Uncommitted 0)));
   Record_ (DRemove (Uncommitted 2))].
Example C40_example :
  match all_ops on_flat sample_ops delta_default, all_ops on_stack sample_ops delta_default with
  | Ok (ids, flat), Ok (ids', stack) =>
    ids = [Some (Uncommitted 0); Some (Uncommitted 1); None; Some (Uncommitted 2);
           Some (Uncommitted 1); None; Some (Uncommitted 3); Some (Uncommitted 1);
           Some (Uncommitted 2)]
    /\ ids' = ids /\ List.length (layers stack) = 3 /\ List.length (layers flat) = 1
  | _, _ => False
  end.
Proof. vm_compute. repeat split. Qed.
(** The converse of the first theorem does not hold: a change to a concept that a lower
    layer has removed is refused by one layer and accepted by the stack. *)
Example C40_stacks_accept_more :
  let ops := [Record_ (DNew NFreeVariable); Record_ (DRemove (Uncommitted 0)); NewLayer;
              Record_ (DReduce (Uncommitted 0) (Create (Committed 2)))] in
  all_ops on_flat ops delta_default = Panic "Concept already removed"
  /\ match all_ops on_stack ops delta_default with Ok _ => True | _ => False end.
Proof. vm_compute. split; [reflexivity|exact I]. Qed.
