(** Identifiers, built-in concept types, and the configuration every run has. *)
From Verif Require Export Text.
From Coq Require Import String Permutation.

(** zia/src/context_snap_shot/concept_id.rs:20-34.
    [Committed n] is the slot-map key in slot [n+1] with version 1: the slot map is
    only ever inserted into (removal is [todo!()], context_snap_shot/mod.rs), so keys
    are handed out consecutively and versions never change. *)
Inductive cid := Committed (n : nat) | Uncommitted (n : nat).

Definition cid_eqb (a b : cid) : bool :=
  match a, b with
  | Committed x, Committed y => Nat.eqb x y
  | Uncommitted x, Uncommitted y => Nat.eqb x y
  | _, _ => false
  end.

(** zia/src/context_snap_shot/concept_id.rs:10-49 ([Display]); slotmap's key prints as
    [{index}v{version}] and its first usable index is 1. *)
Definition show_cid (c : cid) : text :=
  match c with
  | Committed n => txt "CommittedConceptId: " ++ show_nat (S n) ++ txt "v1"
  | Uncommitted n => txt "UncommittedConceptId: " ++ show_nat n
  end.

(** zia/src/concepts/mod.rs:728-744 *)
Inductive cct :=
| CLabel | CDefine | CReduction | CLet | CTrue | CFalse | CAssociativity | CRight | CLeft
| CGreaterThan | CImplication | CExistsSuchThat | CPrecedes | CForget.

Definition cct_eq_dec (a b : cct) : {a = b} + {a <> b}.
Proof. decide equality. Defined.
Definition cct_eqb (a b : cct) : bool := if cct_eq_dec a b then true else false.

(** zia/src/concepts/mod.rs:722-726 *)
Inductive hand := HLeft | HRight.

(** zia/src/lexer.rs:22-32 *)
Inductive concept_kind :=
| KConcrete (id : cid) (concrete_type : cct)
| KAbstract (id : cid)
| KNew
| KVariable.

(** Whose iteration is being ordered.  A Rust [HashMap]/[HashSet] is iterated in an
    order that depends on its own random state and contents. *)
Inductive owner :=
| OHand (c : cid) (h : hand)     (* lefthand_of / righthand_of of a concept *)
| OReducesFrom (c : cid)         (* reduces_from of a concept *)
| OChanges (c : cid)             (* reductions added to a committed concept *)
| ODelta (n : nat)               (* concept map of the n-th layer of a delta *)
| OTemp (n : nat).               (* a local collection, numbered at run time *)

(** One run of the program: its build mode and its hash iteration orders. *)
Record config := { dbg : bool; ord : owner -> forall A : Type, list A -> list A }.

(** An iteration visits every element exactly once. *)
Definition fair (c : config) : Prop :=
  forall o A (l : list A), Permutation (ord c o A l) l.

(** The configuration used by the tests: debug build, insertion order. *)
Definition cfg0 : config := {| dbg := true; ord := fun _ _ l => l |}.
