(** C56: what is answered when the name of something is asked for. *)
From Verif Require Import Start Snapshot Search Context StoreSpec NameSpec FrameSpec MapFacts AstFacts StoreFacts RangeFacts
  History Quiet Frames Links Indirect Sample Witness NameWitness PropertiesIndirect Asking.
From Coq Require Import String List Bool PeanoNat.
Import ListNotations.
Local Open Scope string_scope.

(** A command `label_of x` is answered, in quotes, with the name that what [x] stands for goes by
    ([goes_by], Asking.v): its label or, if it has none, the name of what it reduces to.  If there is
    none the text of [x] is answered.  Nothing about any existing concept changes.  For every history in
    which no composition is replaced or removed, every hash order and both build modes. *)
Theorem C56_names_are_answered b cfg fuel command c c1 c' t l r k answer :
  fair cfg -> dbg cfg = b -> reachable_with b (links_safe b) c ->
  read_tree cfg fuel command c = Ok (Val t, c1) -> t_exp t = Some (l, r) -> not_a_string cfg c1 t ->
  asks_name cfg c1 l -> t_concept r = Some k ->
  execute cfg fuel command c = Ok (answer, c') ->
  (forall w, goes_by (c_snap c') (place (c_snap c) k) w -> answer = quoted w) /\
  (nameless (c_snap c') (place (c_snap c) k) -> answer = quoted (display r)) /\
  same_meaning (c_snap c) (c_snap c').
Proof.
  intros F D R RT X S A K E.
  destruct (name_answered b cfg fuel command c c1 c' t l r answer F D RT X S A E k R K) as [H1 H2].
  split; [exact H1|]. split; [exact H2|].
  exact (name_changes_nothing b cfg fuel command c c1 c' t l r answer F RT X S A E (reachable_without _ _ _ R)).
Qed.
Print Assumptions C56_names_are_answered.

(** In any history: the answer is what looking up the label gives once the command is over, and the text
    of [x] if that gives nothing or [x] has no concept.  Nothing changes. *)
Theorem C56_names_are_looked_up b cfg fuel command c c1 c' t l r answer :
  fair cfg -> reachable b c ->
  read_tree cfg fuel command c = Ok (Val t, c1) -> t_exp t = Some (l, r) -> not_a_string cfg c1 t ->
  asks_name cfg c1 l -> execute cfg fuel command c = Ok (answer, c') ->
  (exists v, answer = quoted match v with Some w => w | None => display r end /\
     match t_concept r with
     | Some k => get_label cfg (c_snap c') delta_default fuel (Committed (place (c_snap c) k)) = Ok v
     | None => v = None
     end) /\
  same_meaning (c_snap c) (c_snap c').
Proof.
  intros F R RT X S A E. split.
  - exact (name_looked_up b cfg fuel command c c1 c' t l r answer F RT X S A E R).
  - exact (name_changes_nothing b cfg fuel command c c1 c' t l r answer F RT X S A E R).
Qed.
Print Assumptions C56_names_are_looked_up.

(** ** The hypotheses are met *)
(** By `label_of (b d)` after `let (b d) -> c`, answered with 'c', and by `label_of (p q)`, answered with
    'p q'. *)
Definition asks_name_b (c : ctx) (l : tree) : bool :=
  match t_concept l with
  | Some k => match concrete_concept_type cfg0 (c_snap c) (c_delta c) k with Ok (Some CLabel) => true | _ => false end
  | None => false
  end.
Lemma asks_name_ok c l : asks_name_b c l = true -> asks_name cfg0 c l.
Proof.
  unfold asks_name_b, asks_name. destruct (t_concept l) as [k|]; [|discriminate]. intros H. exists k.
  split; [reflexivity|]. destruct (concrete_concept_type _ _ _ _) as [[[]|]| | |]; try discriminate. reflexivity.
Qed.
Definition no_label_b (s : snapshot) (n : nat) : bool :=
  forallb (fun k => match composition_of s k with
                    | Some (l, r) => negb (Nat.eqb r n) || match built_in_of s l with Some CLabel => false | _ => true end
                    | None => true end) (seq 0 (size s)).
Lemma no_label_ok s n : no_label_b s n = true -> no_label s n.
Proof.
  intros H lab comp B C. unfold no_label_b in H. rewrite forallb_forall in H.
  assert (L : Peano.lt comp (size s)) by (destruct C as (x & _ & _ & _ & L & _); apply known_lt; congruence).
  specialize (H comp). rewrite in_seq in H. specialize (H (conj (Nat.le_0_l _) L)).
  apply composition_of_composed in C. rewrite C, Nat.eqb_refl in H. cbn in H.
  destruct B as (x & Lx & Sx). unfold built_in_of in H. rewrite Lx, Sx in H. discriminate.
Qed.
Definition goes_by_b (s : snapshot) (n : nat) (w : text) : bool :=
  no_label_b s n && match reduction_of s n with Some m => carries s m w | None => false end.
Lemma goes_by_ok s n w : goes_by_b s n w = true -> goes_by s n w.
Proof.
  unfold goes_by_b. intros H. apply andb_prop in H. destruct H as [H1 H2].
  destruct (reduction_of s n) as [m|] eqn:R; [|discriminate].
  eapply GoesByReduction; [apply no_label_ok, H1|apply reduction_of_reduces, R|]. apply GoesByLabel, carries_label_of, H2.
Qed.
Definition name_check (s : snapshot) (read : outcome (zres tree * ctx)) (run : outcome (text * ctx)) (a w : text) : bool :=
  match read, run with
  | Ok (Val t, c1), Ok (answer, c') =>
    text_eqb answer a && not_a_string_b c1 t &&
    match t_exp t with
    | Some (l, r) => asks_name_b c1 l && match t_concept r with
                     | Some k => goes_by_b (c_snap c') (place s k) w | None => false end
    | None => false
    end
  | _, _ => false
  end.
Lemma name_meaning s read run a w : name_check s read run a w = true ->
  exists t c1 l r k c', read = Ok (Val t, c1) /\ t_exp t = Some (l, r) /\ not_a_string cfg0 c1 t /\
    asks_name cfg0 c1 l /\ t_concept r = Some k /\ run = Ok (a, c') /\ goes_by (c_snap c') (place s k) w.
Proof.
  unfold name_check. destruct read as [[[t|] c1]| | |]; try discriminate.
  destruct run as [[answer c']| | |]; try discriminate. intros H.
  apply andb_prop in H. destruct H as [H H3]. apply andb_prop in H. destruct H as [H1 H2].
  destruct (text_eqb_spec answer a) as [->|]; [|discriminate].
  destruct (t_exp t) as [[l r]|] eqn:X; [|discriminate]. apply andb_prop in H3. destruct H3 as [H3 H4].
  destruct (t_concept r) as [k|] eqn:K; [|discriminate].
  exists t, c1, l, r, k, c'. split; [reflexivity|]. split; [exact X|]. split; [apply not_a_string_ok, H2|].
  split; [apply asks_name_ok, H3|]. split; [exact K|]. split; [reflexivity|]. apply goes_by_ok, H4.
Qed.
Lemma name_checked :
  name_check (c_snap small) (read_tree cfg0 fuel0 (txt "label_of (b d)") small)
    (execute cfg0 fuel0 (txt "label_of (b d)") small) (txt "'c'") (txt "c") = true.
Proof. vm_compute. reflexivity. Qed.
Example C56_apply : exists t c1 l r k c', reachable_with true (links_safe true) small /\
  read_tree cfg0 fuel0 (txt "label_of (b d)") small = Ok (Val t, c1) /\ t_exp t = Some (l, r) /\
  not_a_string cfg0 c1 t /\ asks_name cfg0 c1 l /\ t_concept r = Some k /\
  execute cfg0 fuel0 (txt "label_of (b d)") small = Ok (txt "'c'", c') /\
  goes_by (c_snap c') (place (c_snap small) k) (txt "c").
Proof.
  destruct (name_meaning _ _ _ _ _ name_checked) as (t & c1 & l & r & k & c' & H).
  exists t, c1, l, r, k, c'. split; [exact small_reachable|exact H].
Qed.
Example C56_unnamed : exists c', execute cfg0 fuel0 (txt "label_of (p q)") small = Ok (txt "'p q'", c').
Proof. apply (answers_eq (txt "'p q'")). vm_compute. reflexivity. Qed.
