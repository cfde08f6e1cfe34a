(** Names of concepts, in terms of what the committed store says (StoreSpec.v). *)
From Verif Require Import Snapshot StoreSpec.
From Coq Require Import List Relations.
Import ListNotations.

(** The label of [x] is [t]: the composition of the built-in label concept with [x] reduces
    to a string with text [t]. *)
Definition carries_label (s : snapshot) (x : nat) (t : text) : Prop :=
  exists lab comp str, built_in s lab CLabel /\ composed s comp lab x /\
    clos_trans nat (reduces s) comp str /\ has_text s str t.

(** [t] leads to [x]: from the string the store keeps for [t], following the recorded lists
    of what reduces to what, one finds a composition of the label concept with [x]. *)
Definition found_under (s : snapshot) (t : text) (x : nat) : Prop :=
  exists str comp lab, aget text_eqb t (string_map s) = Some str /\
    clos_trans nat (lists_reduction_from s) str comp /\
    composed s comp lab x /\ built_in s lab CLabel.

(** A variable symbol starts and ends with an underscore. *)
Definition underscored (t : text) : Prop :=
  (exists u, t = 95%N :: u) /\ (exists u, t = u ++ [95%N]).
