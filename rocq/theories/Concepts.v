(** Concepts (zia/src/concepts/mod.rs), with identifiers left abstract as in the
    source ([Concept<Id>] is used with [Committed] and with [ConceptId]). *)
From Verif Require Export Ast.
From Coq Require Import String List.
Import ListNotations.
Local Open Scope zia_scope.
Set Implicit Arguments.

(** zia/src/concepts/mod.rs:916-921 *)
Inductive leaf_character := Constant | FreeVariable | BoundVariable.

(** zia/src/concepts/mod.rs:897-914 ([MaybeComposition], [CompositePart]) *)
Inductive composition (I : Type) :=
| Comp (lefthand righthand : I) (free_variables binding_variables : list I)
| Leaf (ch : leaf_character).
Arguments Leaf {I} ch.

(** zia/src/concepts/mod.rs:711-720, 888-895 ([SpecificPart], [AbstractPart]) *)
Inductive specific (I : Type) :=
| Concrete (cc : cct)
| Abstract (composition : composition I) (reduces_to : option I)
| StringPart (s : text).
Arguments Concrete {I} cc.
Arguments StringPart {I} s.

(** zia/src/concepts/mod.rs:36-41, 1059-1067 ([Concept], [ConcreteConcept]) *)
Record concept (I : Type) := Concept {
  c_id : I;
  lefthand_of : list (I * I);
  righthand_of : list (I * I);
  reduces_from : list I;
  c_spec : specific I
}.

(** zia/src/context_delta.rs:837-847 ([ValueChange]) *)
Inductive change (T : Type) :=
| Create (after : T)
| Update (before after : T)
| Remove (before : T).

(** zia/src/context_delta.rs:849-853, 780-789 ([Composition], [IndirectConceptDelta]) *)
Inductive indirect (I : Type) :=
| ILefthandOf (composition righthand : I)
| IRighthandOf (composition lefthand : I)
| INoLongerLefthandOf (righthand : I)
| INoLongerRighthandOf (lefthand : I)
| IReducesFrom (unreduced : I)
| INoLongerReducesFrom (unreduced : I)
| IComposedOf (lft rgt : I).

(** zia/src/context_delta.rs:811-835 ([NewConceptDelta]) *)
Inductive new_delta (I : Type) :=
| NString (s : text)
| NComposition (left right : I)
| NFreeVariable
| NBoundVariable
| NLefthand (composition right : I) (concrete_type : option cct)
| NRighthand (composition left : I) (concrete_type : option cct)
| NDouble (composition : I) (concrete_type : option cct)
| NReducesTo (reduction : I).
Arguments NString {I} s.
Arguments NFreeVariable {I}.
Arguments NBoundVariable {I}.

Section Concepts.
  Context {I : Type} (eqb : I -> I -> bool) (dbg : bool).
  Local Notation concept := (concept I).

  (** zia/src/concepts/mod.rs:872-880 ([From<(T, Id)>]) *)
  Definition plain (id : I) (sp : specific I) : concept := Concept id [] [] [] sp.
  (** zia/src/concepts/mod.rs:363-374 *)
  Definition make_free_variable (id : I) : concept :=
    plain id (Abstract (Leaf FreeVariable) None).
  (** zia/src/concepts/mod.rs:376-387 *)
  Definition make_bound_variable (id : I) : concept :=
    plain id (Abstract (Leaf BoundVariable) None).

  Definition set_spec (c : concept) (sp : specific I) : concept :=
    Concept (c_id c) (lefthand_of c) (righthand_of c) (reduces_from c) sp.
  Definition set_left (c : concept) (m : list (I * I)) : concept :=
    Concept (c_id c) m (righthand_of c) (reduces_from c) (c_spec c).
  Definition set_right (c : concept) (m : list (I * I)) : concept :=
    Concept (c_id c) (lefthand_of c) m (reduces_from c) (c_spec c).
  Definition set_from (c : concept) (s : list I) : concept :=
    Concept (c_id c) (lefthand_of c) (righthand_of c) s (c_spec c).

  (** zia/src/concepts/mod.rs:139-146.  Both concepts are updated in place in the
      source; here the updated pair is returned. *)
  Definition make_reduce_to (self other : concept) : outcome (concept * concept) :=
    match c_spec self with
    | Abstract comp _ =>
      Ok (set_spec self (Abstract comp (Some (c_id other))),
          set_from other (sadd eqb (c_id self) (reduces_from other)))
    | _ => Panic "Cannot reduce a concrete concept"
    end.

  (** zia/src/concepts/mod.rs:148-158 *)
  Definition make_no_longer_reduce_to (self before : concept)
    : outcome (concept * concept) :=
    match c_spec self with
    | Abstract comp _ =>
      Ok (set_spec self (Abstract comp None),
          set_from before (sdel eqb (c_id self) (reduces_from before)))
    | _ => Panic "Concrete concept did not reduce to anything"
    end.

  (** zia/src/concepts/mod.rs:1146-1150, 1164-1171 ([insert_into]) *)
  Definition insert_into (k comp : I) (m : list (I * I)) : outcome (list (I * I)) :=
    _ <- match aget eqb k m with
         | Some prev => dassert dbg (eqb comp prev) "at most one composition of a pair"
         | None => Ok tt
         end ;;
    Ok (aset eqb k comp m).

  (** zia/src/concepts/mod.rs:982-1017: variables of the composition of two concepts.
      The insertion of [right.id] for a left leaf variable (lines 1010 and 1013) is as
      in the source. *)
  Definition comp_vars (lft rgt : concept) : list I * list I :=
    let '(fv, bv) :=
      match c_spec rgt with
      | Abstract (Comp _ _ fv bv) _ => (fv, bv)
      | Abstract (Leaf FreeVariable) _ => ([c_id rgt], [])
      | Abstract (Leaf BoundVariable) _ => ([], [c_id rgt])
      | _ => ([], [])
      end in
    match c_spec lft with
    | Abstract (Comp _ _ lfv lbv) _ =>
      (sextend eqb (filter (fun v => negb (smem eqb v lbv)) fv) lfv,
       sextend eqb (filter (fun v => negb (smem eqb v lfv)) bv) lbv)
    | Abstract (Leaf FreeVariable) _ => (sadd eqb (c_id rgt) fv, bv)
    | Abstract (Leaf BoundVariable) _ => (fv, sadd eqb (c_id rgt) bv)
    | _ => (fv, bv)
    end.

  (** zia/src/concepts/mod.rs:967-1024 ([MaybeComposition::composition_of]): the new
      composition and the updated hands. *)
  Definition composition_of (id : I) (lft rgt : concept)
    : outcome (composition I * concept * concept) :=
    lm <- insert_into (c_id rgt) id (lefthand_of lft) ;;
    rm <- insert_into (c_id lft) id (righthand_of rgt) ;;
    let lft' := set_left lft lm in
    let rgt' := set_right rgt rm in
    let '(fv, bv) := comp_vars lft' rgt' in
    Ok (Comp (c_id lft) (c_id rgt) fv bv, lft', rgt').

  Definition abstract_or_concrete (cc : option cct) : specific I :=
    match cc with
    | None => Abstract (Leaf Constant) None
    | Some cc => Concrete cc
    end.

  (** zia/src/concepts/mod.rs:690-695 *)
  Definition get_concrete (c : concept) : option cct :=
    match c_spec c with Concrete cc => Some cc | _ => None end.

  Definition opt_cct_eqb : option cct -> option cct -> bool := option_eqb cct_eqb.

  (** zia/src/concepts/mod.rs:181-247: a new left hand [id] of [comp], whose right hand
      is [right].  Returns (new concept, right, composition). *)
  Definition new_lefthand_of (id : I) (rgt comp : concept) (cc : option cct)
    : outcome (concept * concept * concept) :=
    match c_spec comp with
    | Abstract (Leaf Constant) red =>
      rm <- insert_into id (c_id comp) (righthand_of rgt) ;;
      let rgt' := set_right rgt rm in
      let '(fv, bv) :=
        if opt_cct_eqb (get_concrete rgt') (Some CExistsSuchThat) then ([], [id])
        else match c_spec rgt' with
             | Abstract (Comp _ _ fv bv) _ => (fv, bv)
             | _ => ([], [])
             end in
      Ok (Concept id [(c_id rgt, c_id comp)] [] [] (abstract_or_concrete cc),
          rgt',
          set_spec comp (Abstract (Comp id (c_id rgt) fv bv) red))
    | Abstract _ _ => Err BadComposition
    | _ => Err SettingCompositionOfConcrete
    end.

  (** zia/src/concepts/mod.rs:249-312: a new right hand [id] of [comp], whose left hand
      is [left].  Returns (new concept, left, composition). *)
  Definition new_righthand_of (id : I) (lft comp : concept) (cc : option cct)
    : outcome (concept * concept * concept) :=
    match c_spec comp with
    | Abstract (Leaf Constant) red =>
      lm <- insert_into id (c_id comp) (lefthand_of lft) ;;
      let lft' := set_left lft lm in
      let '(fv, bv) :=
        if opt_cct_eqb cc (Some CExistsSuchThat) then ([], [c_id lft])
        else match c_spec lft' with
             | Abstract (Comp _ _ fv bv) _ => (fv, bv)
             | _ => ([], [])
             end in
      Ok (Concept id [] [(c_id lft, c_id comp)] [] (abstract_or_concrete cc),
          lft',
          set_spec comp (Abstract (Comp (c_id lft) id fv bv) red))
    | Abstract _ _ => Err BadComposition
    | _ => Err SettingCompositionOfConcrete
    end.

  (** zia/src/concepts/mod.rs:314-361.  Returns (new concept, composition). *)
  Definition new_double (id : I) (comp : concept) (cc : option cct)
    : outcome (concept * concept) :=
    match c_spec comp with
    | Abstract _ red =>
      Ok (Concept id [(id, c_id comp)] [(id, c_id comp)] [] (abstract_or_concrete cc),
          set_spec comp (Abstract (Comp id id [] []) red))
    | _ => Panic "tried to compose a conctrete concept"
    end.

  (** zia/src/concepts/mod.rs:168-179.  Returns (new concept, reduction). *)
  Definition new_reduction_to (id : I) (reduction : concept) : concept * concept :=
    (plain id (Abstract (Leaf Constant) (Some (c_id reduction))),
     set_from reduction (sadd eqb id (reduces_from reduction))).

  (** zia/src/concepts/mod.rs:429-439, 752-810, 1079-1133: the uncommitted concept a
      [NewConceptDelta] stands for. *)
  Definition concept_of_new (id : I) (nd : new_delta I) : concept :=
    match nd with
    | NBoundVariable => make_bound_variable id
    | NFreeVariable => make_free_variable id
    | NComposition l r => plain id (Abstract (Comp l r [] []) None)
    | NLefthand comp rgt cc =>
      Concept id [(rgt, comp)] [] [] (abstract_or_concrete cc)
    | NRighthand comp lft cc =>
      Concept id [] [(lft, comp)] [] (abstract_or_concrete cc)
    | NDouble comp cc => Concept id [(id, comp)] [(id, comp)] [] (abstract_or_concrete cc)
    | NString s => plain id (StringPart s)
    | NReducesTo r => plain id (Abstract (Leaf Constant) (Some r))
    end.

  (** zia/src/concepts/mod.rs:465-484 *)
  Definition change_reduction (c : concept) (ch : change I) : outcome concept :=
    match c_spec c with
    | Abstract comp red =>
      match ch with
      | Create r | Update _ r => Ok (set_spec c (Abstract comp (Some r)))
      | Remove r =>
        _ <- dassert dbg (option_eqb eqb (Some r) red) "change_reduction" ;;
        Ok (set_spec c (Abstract comp None))
      end
    | _ => Ok c
    end.

  (** zia/src/concepts/mod.rs:486-523 *)
  Definition apply_indirect (c : concept) (d : indirect I) : outcome concept :=
    match d with
    | IComposedOf l r =>
      match c_spec c with
      | Abstract _ red => Ok (set_spec c (Abstract (Comp l r [] []) red))
      | _ => Panic "Concept isn't abstract"
      end
    | ILefthandOf comp rgt => omap (set_left c) (insert_into rgt comp (lefthand_of c))
    | IRighthandOf comp lft => omap (set_right c) (insert_into lft comp (righthand_of c))
    | IReducesFrom u => Ok (set_from c (sadd eqb u (reduces_from c)))
    | INoLongerLefthandOf rgt => Ok (set_left c (adel eqb rgt (lefthand_of c)))
    | INoLongerRighthandOf lft => Ok (set_right c (adel eqb lft (righthand_of c)))
    | INoLongerReducesFrom u => Ok (set_from c (sdel eqb u (reduces_from c)))
    end.

  (** zia/src/concepts/mod.rs:527-546 *)
  Definition free_variable (c : concept) : bool :=
    match c_spec c with
    | Abstract (Comp _ _ (_ :: _) _) _ => true
    | Abstract (Leaf FreeVariable) _ => true
    | _ => false
    end.
  (** zia/src/concepts/mod.rs:550-569 *)
  Definition bounded_variable (c : concept) : bool :=
    match c_spec c with
    | Abstract (Comp _ _ _ (_ :: _)) _ => true
    | Abstract (Leaf BoundVariable) _ => true
    | _ => false
    end.
  (** zia/src/concepts/mod.rs:573-595 *)
  Definition anonymous_variable (c : concept) : bool :=
    match c_spec c with
    | Abstract (Comp _ _ fv bv) _ =>
      match fv, bv with [], [] => false | _, _ => true end
    | Abstract (Leaf FreeVariable) _ | Abstract (Leaf BoundVariable) _ => true
    | _ => false
    end.
  (** zia/src/concepts/mod.rs:602-607 *)
  Definition get_string (c : concept) : option text :=
    match c_spec c with StringPart s => Some s | _ => None end.
  (** zia/src/concepts/mod.rs:610-615 *)
  Definition get_reduction (c : concept) : option I :=
    match c_spec c with Abstract _ red => red | _ => None end.
  (** zia/src/concepts/mod.rs:618-634 *)
  Definition get_composition (c : concept) : option (I * I) :=
    match c_spec c with Abstract (Comp l r _ _) _ => Some (l, r) | _ => None end.
  (** zia/src/concepts/mod.rs:457-463 with 924-938 *)
  Definition maybe_composition (c : concept) : option (composition I) :=
    match c_spec c with
    | Abstract (Comp l r _ _) _ => Some (Comp l r [] [])
    | Abstract (Leaf ch) _ => Some (Leaf ch)
    | _ => None
    end.
  (** zia/src/concepts/mod.rs:389-394 *)
  Definition hand_of (c : concept) (h : hand) : list (I * I) :=
    match h with HLeft => lefthand_of c | HRight => righthand_of c end.
  (** zia/src/concepts/mod.rs:677-688 *)
  Definition find_as_hand (c : concept) (other : I) (h : hand) : option I :=
    aget eqb other (hand_of c h).

  (** zia/src/concepts/mod.rs:636-675 ([change_composition]), split by kind of change.
      Each returns the composition followed by the hands it was given.  As in the
      source the old links are removed under the key [self.id]. *)
  Definition change_composition_create (self lft rgt : concept)
    : outcome (concept * concept * concept) :=
    match c_spec self with
    | Abstract _ red =>
      ' (comp, lft', rgt') <- composition_of (c_id self) lft rgt ;;
      Ok (set_spec self (Abstract comp red), lft', rgt')
    | _ => Err SettingCompositionOfConcrete
    end.
  Definition change_composition_update (self bleft bright lft rgt : concept)
    : outcome (concept * concept * concept * concept * concept) :=
    match c_spec self with
    | Abstract _ red =>
      let bleft' := set_left bleft (adel eqb (c_id self) (lefthand_of bleft)) in
      let bright' := set_right bright (adel eqb (c_id self) (righthand_of bright)) in
      ' (comp, lft', rgt') <- composition_of (c_id self) lft rgt ;;
      Ok (set_spec self (Abstract comp red), bleft', bright', lft', rgt')
    | _ => Err SettingCompositionOfConcrete
    end.
  Definition change_composition_remove (self bleft bright : concept)
    : outcome (concept * concept * concept) :=
    match c_spec self with
    | Abstract _ red =>
      Ok (set_spec self (Abstract (Leaf Constant) red),
          set_left bleft (adel eqb (c_id self) (lefthand_of bleft)),
          set_right bright (adel eqb (c_id self) (righthand_of bright)))
    | _ => Err SettingCompositionOfConcrete
    end.
End Concepts.
