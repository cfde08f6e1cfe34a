(** Existence questions. *)
From Verif Require Import Start Snapshot StoreSpec MapFacts RangeFacts History Sample Witness.
From Coq Require Import String List.
Import ListNotations.
Local Open Scope string_scope.

(** The names known in a state without pending changes are among its strings. *)
Lemma known_name cfg fuel snap s id :
  concept_from_label cfg snap delta_default fuel s = Ok (Some id) -> In s (map fst (string_map snap)).
Proof.
  unfold concept_from_label, get_string_concept. cbn [delta_string layers_string layers delta_default aget d_string new_layer combine_change obind].
  destruct (aget text_eqb s (string_map snap)) as [n|] eqn:E; [|discriminate].
  intros _. apply (aget_In text_eqb text_eqb_spec) in E. apply (in_map fst) in E. exact E.
Qed.

Definition not_true (x : outcome (text * ctx)) : bool :=
  match x with Ok (r, _) => negb (text_eqb r (txt "true")) | _ => true end.
Definition no_witness_checked :
  answers (txt "true") (execute cfg0 fuel0 (txt "(_x_ exists_such_that) _x_ c") context0) &&
  forallb (fun '(s, _) => not_true (execute cfg0 fuel0 (s ++ txt " c")%list context0))
          (string_map (c_snap context0)) = true.
Proof. vm_compute. reflexivity. Qed.
Lemma context0_delta : c_delta context0 = delta_default.
Proof. reflexivity. Qed.

(** C48: in a new context, where nothing has been said about [c], the question whether
    something exists that makes `_x_ c` true is answered true, yet no name known to the
    program makes it true. *)
Theorem C48_existence_without_a_witness_refuted :
  exists c', execute cfg0 fuel0 (txt "(_x_ exists_such_that) _x_ c") context0 = Ok (txt "true", c') /\
    forall name id, concept_from_label cfg0 (c_snap context0) (c_delta context0) fuel0 name = Ok (Some id) ->
      forall r c'', execute cfg0 fuel0 (name ++ txt " c")%list context0 = Ok (r, c'') -> r <> txt "true".
Proof.
  destruct (andb_prop _ _ no_witness_checked) as [K1 K2]. destruct (answers_eq _ _ K1) as [c' E].
  exists c'. split; [exact E|]. intros name id L r c'' X.
  rewrite context0_delta in L. apply known_name in L. apply in_map_iff in L.
  destruct L as [[s n] [Es I]]. cbn [fst] in Es. subst s.
  rewrite forallb_forall in K2. specialize (K2 _ I). cbv beta iota in K2. unfold not_true in K2. rewrite X in K2.
  intros ->. destruct (text_eqb_spec (txt "true") (txt "true")); [discriminate K2|congruence].
Qed.
Print Assumptions C48_existence_without_a_witness_refuted.
