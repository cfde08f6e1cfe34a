(** What it means that a command leaves a concept alone, in terms of what the committed
    store says (StoreSpec.v, NameSpec.v). *)
From Verif Require Import Snapshot StoreSpec NameSpec.
From Coq Require Import Relations.

Definition same_reduction (s s' : snapshot) (n : nat) : Prop :=
  forall r, reduces s n r <-> reduces s' n r.
Definition same_composition (s s' : snapshot) (n : nat) : Prop :=
  forall l r, composed s n l r <-> composed s' n l r.
Definition same_text (s s' : snapshot) (n : nat) : Prop :=
  (forall t, has_text s n t <-> has_text s' n t) /\ (forall cc, built_in s n cc <-> built_in s' n cc).
Definition same_label (s s' : snapshot) (n : nat) : Prop :=
  forall t, carries_label s n t <-> carries_label s' n t.

(** Nothing about the concepts of [s] is different in [s']. *)
Definition same_meaning (s s' : snapshot) : Prop :=
  forall n, lookup s n <> None ->
    same_reduction s s' n /\ same_composition s s' n /\ same_text s s' n /\ same_label s s' n.

(** The number that the concept [id] of a command has once the command is committed:
    concepts created by the command come after those of [s], in order. *)
Definition place (s : snapshot) (id : cid) : nat :=
  match id with Committed n => n | Uncommitted u => length (concepts s) + u end.

(** [x] is on the way from the label composition of [n] to its text. *)
Definition on_label_path (s : snapshot) (n x : nat) : Prop :=
  exists lab comp, built_in s lab CLabel /\ composed s comp lab n /\
    clos_refl_trans nat (reduces s) comp x.

(** Only [x] may reduce to something else; and only names that go through [x] may change. *)
Definition only_reduction_of (x : nat) (s s' : snapshot) : Prop :=
  forall n, lookup s n <> None ->
    (n <> x -> same_reduction s s' n) /\ same_composition s s' n /\ same_text s s' n /\
    (~ on_label_path s' n x -> same_label s s' n).

(** Only [x] may be composed of something else; and only the names of concepts that [x] is
    the label composition of, before or after, may change. *)
Definition only_composition_of (x : nat) (s s' : snapshot) : Prop :=
  forall n, lookup s n <> None ->
    same_reduction s s' n /\ (n <> x -> same_composition s s' n) /\ same_text s s' n /\
    ((forall lab, built_in s' lab CLabel -> ~ composed s x lab n /\ ~ composed s' x lab n) -> same_label s s' n).
