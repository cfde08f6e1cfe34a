(** Specification of the committed store: what a snapshot says about each concept, and the
    invariants of C12-C16 and C22.  Only the data of a snapshot is mentioned. *)
From Verif Require Import Snapshot.
From Coq Require Import List.
Import ListNotations.

(** The concept with a given number. *)
Definition lookup (s : snapshot) (n : nat) : option (concept nat) := nth_error (concepts s) n.

(** What the store says. *)
Definition reduces (s : snapshot) (n r : nat) : Prop :=
  exists c comp, lookup s n = Some c /\ c_spec c = Abstract comp (Some r).
Definition lists_reduction_from (s : snapshot) (r n : nat) : Prop :=
  exists c, lookup s r = Some c /\ In n (reduces_from c).
Definition composed (s : snapshot) (n l r : nat) : Prop :=
  exists c fv bv red, lookup s n = Some c /\ c_spec c = Abstract (Comp l r fv bv) red.
(** [l] records [n] as its composition with [r] on the right. *)
Definition lists_left_composition (s : snapshot) (l r n : nat) : Prop :=
  exists c, lookup s l = Some c /\ aget Nat.eqb r (lefthand_of c) = Some n.
(** [r] records [n] as its composition with [l] on the left. *)
Definition lists_right_composition (s : snapshot) (r l n : nat) : Prop :=
  exists c, lookup s r = Some c /\ aget Nat.eqb l (righthand_of c) = Some n.
Definition has_text (s : snapshot) (n : nat) (t : text) : Prop :=
  exists c, lookup s n = Some c /\ c_spec c = StringPart t.
Definition built_in (s : snapshot) (n : nat) (cc : cct) : Prop :=
  exists c, lookup s n = Some c /\ c_spec c = Concrete cc.
Definition leaf_variable (s : snapshot) (n : nat) (ch : leaf_character) : Prop :=
  exists c red, lookup s n = Some c /\ c_spec c = Abstract (Leaf ch) red.
Definition is_abstract (s : snapshot) (n : nat) : Prop :=
  exists c comp red, lookup s n = Some c /\ c_spec c = Abstract comp red.

(** Every concept knows its own number. *)
Definition self_numbered (s : snapshot) : Prop :=
  forall n c, lookup s n = Some c -> c_id c = n.

(** ** C12: [s'] knows everything [s] knows. *)
Definition extends (s s' : snapshot) : Prop :=
  (forall n, lookup s n <> None -> lookup s' n <> None) /\
  (forall n t, has_text s n t -> has_text s' n t) /\
  (forall n cc, built_in s n cc -> built_in s' n cc) /\
  (forall n, is_abstract s n -> is_abstract s' n).

(** ** C13 *)
Definition reductions_are_listed (s : snapshot) : Prop :=
  forall n r, reduces s n r -> lists_reduction_from s r n.
(** ** C14 *)
Definition listed_reductions_are_real (s : snapshot) : Prop :=
  forall n r, lists_reduction_from s r n -> reduces s n r.
(** ** C15 *)
Definition compositions_are_listed (s : snapshot) : Prop :=
  forall n l r, composed s n l r ->
    lists_left_composition s l r n /\ lists_right_composition s r l n.
Definition listed_compositions_are_real (s : snapshot) : Prop :=
  forall n l r, lists_left_composition s l r n \/ lists_right_composition s r l n ->
    composed s n l r.
(** A pair has at most one composition. *)
Definition compositions_are_unique (s : snapshot) : Prop :=
  forall n n' l r, composed s n l r -> composed s n' l r -> n = n'.
(** ** C22 *)
Definition part (s : snapshot) (p n : nat) : Prop :=
  exists l r, composed s n l r /\ (p = l \/ p = r).
Definition compositions_are_well_founded (s : snapshot) : Prop :=
  well_founded (part s).
