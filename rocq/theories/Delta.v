(** Uncommitted changes (zia/src/context_delta.rs). *)
From Verif Require Export Concepts.
From Coq Require Import String List.
Import ListNotations.
Local Open Scope zia_scope.
Set Implicit Arguments.

(** zia/src/context_delta.rs:791-803 ([DirectConceptDelta]) *)
Inductive direct :=
| DNew (nd : new_delta cid)
| DCompose (composition_id : cid) (ch : change (cid * cid))
| DReduce (unreduced_id : cid) (ch : change cid)
| DRemove (id : cid).

(** zia/src/context_delta.rs:716-720 ([ConceptDelta]) *)
Inductive cdelta := Direct (d : direct) | Indirect (d : indirect cid).

(** zia/src/context_delta.rs:31-46 ([ContextDelta]) *)
Record layer := Layer {
  d_string : list (text * change cid);
  d_num : nat;                         (* number_of_uncommitted_concepts *)
  d_order : list (cid * direct);       (* concepts_to_apply_in_order *)
  d_concept : list (cid * list cdelta)
}.

(** zia/src/context_delta.rs:64-72 *)
Definition new_layer (n : nat) : layer := Layer [] n [] [].

(** zia/src/context_delta.rs:413-422 ([NestedDelta]): the overlay and the layers below
    it, overlay first. *)
Inductive delta := Delta (overlay : layer) (inner : list layer).
Definition overlay (d : delta) : layer := let 'Delta o _ := d in o.
Definition layers (d : delta) : list layer := let 'Delta o i := d in o :: i.

(** zia/src/context_delta.rs:424-438 *)
Definition delta_default : delta := Delta (new_layer 0) [].

(** zia/src/context_delta.rs:461-471 *)
Definition delta_spawn (d : delta) : delta :=
  Delta (new_layer (d_num (overlay d))) (layers d).

Definition is_remove (d : cdelta) : bool :=
  match d with Direct (DRemove _) => true | _ => false end.

(** zia/src/context_delta.rs:351-371 ([insert_delta_for_concept]).  [ok] is the
    sanity check on the last delta of the entry. *)
Definition insert_delta (ok : cdelta -> bool) (site : string) (id : cid) (cd : cdelta)
    (l : layer) : outcome layer :=
  match aget cid_eqb id (d_concept l) with
  | Some cds =>
    match unsnoc cds with
    | None => Panic "Vector must include at least one element"
    | Some (_, last) =>
      if ok last
      then Ok (Layer (d_string l) (d_num l) (d_order l)
                     (aset cid_eqb id (cds ++ [cd]) (d_concept l)))
      else Panic site
    end
  | None =>
    Ok (Layer (d_string l) (d_num l) (d_order l)
              (aset cid_eqb id [cd] (d_concept l)))
  end.

(** zia/src/context_delta.rs:307-327 *)
Definition insert_existing (id : cid) (cd : cdelta) (l : layer) : outcome layer :=
  insert_delta (fun last => negb (is_remove last)) "Concept already removed" id cd l.

(** zia/src/context_delta.rs:329-349 *)
Definition insert_new (nd : new_delta cid) (l : layer) : outcome (cid * layer) :=
  let id := Uncommitted (d_num l) in
  let l' := Layer (d_string l) (S (d_num l)) (d_order l) (d_concept l) in
  l'' <- insert_delta is_remove "Concept already exists" id (Direct (DNew nd)) l' ;;
  Ok (id, l'').

Definition set_string (s : text) (v : change cid) (l : layer) : layer :=
  Layer (aset text_eqb s v (d_string l)) (d_num l) (d_order l) (d_concept l).

(** zia/src/context_delta.rs:209-305 ([update_new_concept_delta]) *)
Definition update_new (nd : new_delta cid) (l : layer) : outcome (cid * layer) :=
  ' (id, l) <- insert_new nd l ;;
  match nd with
  | NFreeVariable | NBoundVariable => Ok (id, l)
  | NString s =>
    match aget text_eqb s (d_string l) with
    | Some (Create _) | Some (Update _ _) => Panic "String already exists"
    | Some (Remove before) => Ok (id, set_string s (Update before id) l)
    | None => Ok (id, set_string s (Create id) l)
    end
  | NComposition lft rgt =>
    l <- insert_existing lft (Indirect (ILefthandOf id rgt)) l ;;
    l <- insert_existing rgt (Indirect (IRighthandOf id lft)) l ;;
    Ok (id, l)
  | NLefthand comp rgt _ =>
    l <- insert_existing rgt (Indirect (IRighthandOf comp id)) l ;;
    l <- insert_existing comp (Indirect (IComposedOf id rgt)) l ;;
    Ok (id, l)
  | NRighthand comp lft _ =>
    l <- insert_existing lft (Indirect (ILefthandOf comp id)) l ;;
    l <- insert_existing comp (Indirect (IComposedOf lft id)) l ;;
    Ok (id, l)
  | NDouble comp _ =>
    l <- insert_existing comp (Indirect (IComposedOf id id)) l ;;
    Ok (id, l)
  | NReducesTo red =>
    l <- insert_existing red (Indirect (IReducesFrom id)) l ;;
    Ok (id, l)
  end.

(** The value a change replaces, and the value it introduces. *)
Definition before {T} (ch : change T) : option T :=
  match ch with Create _ => None | Update b _ => Some b | Remove b => Some b end.
Definition after {T} (ch : change T) : option T :=
  match ch with Create a => Some a | Update _ a => Some a | Remove _ => None end.

Definition push_order (id : cid) (d : direct) (l : layer) : layer :=
  Layer (d_string l) (d_num l) (d_order l ++ [(id, d)]) (d_concept l).

(** zia/src/context_delta.rs:81-181 ([ContextDelta::update_concept_delta]).  The cache
    invalidation of line 179 is done by the callers (see Updater.v). *)
Definition update_layer (d : direct) (l : layer) : outcome (cid * layer) :=
  ' (id, l) <-
    match d with
    | DNew nd => update_new nd l
    | DCompose c ch =>
      l <- insert_existing c (Direct d) l ;;
      l <- match before ch with
           | Some (lft, rgt) =>
             l <- insert_existing lft (Indirect (INoLongerLefthandOf rgt)) l ;;
             insert_existing rgt (Indirect (INoLongerRighthandOf lft)) l
           | None => Ok l
           end ;;
      l <- match after ch with
           | Some (lft, rgt) =>
             l <- insert_existing lft (Indirect (ILefthandOf c rgt)) l ;;
             insert_existing rgt (Indirect (IRighthandOf c lft)) l
           | None => Ok l
           end ;;
      Ok (c, l)
    | DReduce u ch =>
      l <- insert_existing u (Direct d) l ;;
      l <- match before ch with
           | Some b => insert_existing b (Indirect (INoLongerReducesFrom u)) l
           | None => Ok l
           end ;;
      l <- match after ch with
           | Some a => insert_existing a (Indirect (IReducesFrom u)) l
           | None => Ok l
           end ;;
      Ok (u, l)
    | DRemove id =>
      l <- insert_existing id (Direct d) l ;;
      Ok (id, l)
    end ;;
  Ok (id, push_order id d l).

(** zia/src/context_delta.rs:687-694 ([NestedDelta::update_concept_delta]) *)
Definition delta_update (d : direct) (nd : delta) : outcome (cid * delta) :=
  let 'Delta o i := nd in
  ' (id, o) <- update_layer d o ;; Ok (id, Delta o i).

(** zia/src/context_delta.rs:708-713 *)
Definition delta_insert_new (nd : new_delta cid) (d : delta) : outcome (cid * delta) :=
  let 'Delta o i := d in
  ' (id, o) <- insert_new nd o ;; Ok (id, Delta o i).

Section Strings.
  Variable dbg : bool.

  (** zia/src/context_delta.rs:477-544: combining the change recorded by the inner layers
      with that of the overlay. *)
  Definition combine_change (inner over : option (change cid))
    : outcome (option (change cid)) :=
    match inner, over with
    | _, None => Ok inner
    | None, Some x => Ok (Some x)
    | Some (Remove _), Some (Create c) => Ok (Some (Create c))
    | Some (Create b), Some (Remove r)
    | Some (Update _ b), Some (Remove r) =>
      if cid_eqb b r then Ok (Some (Remove r)) else Panic "get_string assert_eq"
    | Some (Create c), Some (Update b a) =>
      _ <- dassert dbg (cid_eqb c b) "get_string debug_assert_eq" ;;
      Ok (Some (Create a))
    | Some (Update b m1), Some (Update m2 a) =>
      if cid_eqb m1 m2 then Ok (Some (Update b a)) else Panic "get_string assert_eq"
    | Some (Remove _), Some (Remove _)
    | Some (Remove _), Some (Update _ _)
    | Some (Create _), Some (Create _)
    | Some (Update _ _), Some (Create _) => Panic "Unexpected string delta combination"
    end.

  (** zia/src/context_delta.rs:473-545 *)
  Fixpoint layers_string (ls : list layer) (s : text) : outcome (option (change cid)) :=
    match ls with
    | [] => Ok None
    | l :: inner =>
      i <- layers_string inner s ;;
      combine_change i (aget text_eqb s (d_string l))
    end.
  Definition delta_string (d : delta) (s : text) : outcome (option (change cid)) :=
    layers_string (layers d) s.

  (** zia/src/context_delta.rs:547-575 ([iter_string]): each key once, with the combined
      change.  Simplification: listed in insertion order, since its only use
      (context_snap_shot/mod.rs:555-575) treats distinct keys independently. *)
  Fixpoint layers_iter_string (ls : list layer) : outcome (list (text * change cid)) :=
    match ls with
    | [] => Ok []
    | l :: inner =>
      rest <- layers_iter_string inner ;;
      over <- (fix go (ks : list (text * change cid)) :=
                 match ks with
                 | [] => Ok []
                 | (s, _) :: ks =>
                   v <- layers_string ls s ;;
                   vs <- go ks ;;
                   Ok (match v with Some v => (s, v) :: vs | None => vs end)
                 end) (d_string l) ;;
      Ok (filter (fun '(s, _) => match aget text_eqb s (d_string l) with
                                 | Some _ => false | None => true end) rest ++ over)
    end.
  Definition delta_iter_string (d : delta) : outcome (list (text * change cid)) :=
    layers_iter_string (layers d).
End Strings.

(** zia/src/context_delta.rs:577-613 *)
Fixpoint layers_concept (ls : list layer) (id : cid) : option (list cdelta) :=
  match ls with
  | [] => None
  | l :: inner =>
    match layers_concept inner id, aget cid_eqb id (d_concept l) with
    | None, o => o
    | Some i, None => Some i
    | Some i, Some o => Some (i ++ o)
    end
  end.
Definition delta_concept (d : delta) (id : cid) : option (list cdelta) :=
  layers_concept (layers d) id.

(** zia/src/context_delta.rs:615-685 ([iter_concepts]): entries of the inner layers the
    overlay does not touch, then those of the overlay, in the iteration order of each
    layer's hash map. *)
Fixpoint layers_iter_concepts (cfg : config) (ls : list layer)
  : list (cid * list cdelta) :=
  match ls with
  | [] => []
  | l :: inner =>
    filter (fun '(id, _) => match aget cid_eqb id (d_concept l) with
                            | Some _ => false | None => true end)
           (layers_iter_concepts cfg inner)
    ++ map (fun '(id, o) => (id, match layers_concept inner id with
                                 | Some i => i ++ o | None => o end))
           (ord cfg (ODelta (List.length inner)) _ (d_concept l))
  end.
Definition delta_iter_concepts (cfg : config) (d : delta) : list (cid * list cdelta) :=
  layers_iter_concepts cfg (layers d).

(** zia/src/context_delta.rs:696-706 *)
Fixpoint layers_order (ls : list layer) : list (cid * direct) :=
  match ls with
  | [] => []
  | l :: inner => layers_order inner ++ d_order l
  end.
Definition delta_order (d : delta) : list (cid * direct) := layers_order (layers d).
