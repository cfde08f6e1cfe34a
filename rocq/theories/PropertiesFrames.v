(** What commands leave alone. *)
From Verif Require Import Start Snapshot Context StoreSpec NameSpec FrameSpec MapFacts RangeFacts History
  Steps Sample Witness NameWitness Frames.
From Coq Require Import String List Bool Lia.
Import ListNotations.
Local Open Scope string_scope.

(** Sessions followed by one more command. *)
Definition then_command (cmd : string) (check : ctx -> text -> ctx -> bool) (_ : list text) (c : ctx) : bool :=
  match execute cfg0 fuel0 (txt cmd) c with Ok (r, c') => check c r c' | _ => false end.
Lemma then_command_ok cmd check rs c :
  then_command cmd check rs c = true ->
  exists r c', execute cfg0 fuel0 (txt cmd) c = Ok (r, c') /\ check c r c' = true.
Proof.
  unfold then_command. destruct (execute _ _ _ _) as [[r c']| | |]; intros E; try discriminate E. eauto.
Qed.

(** ** C25 *)

(** The whole property is false: a word that reduces to `forget` makes an ordinary question
    forget. `drop a` contains neither `let` nor `forget`, is answered with nothing, and
    removes the reduction of [b]. *)
Definition drop_commands := ["let drop -> forget"; "let (a -> b)"; "let (b -> c)"].
Definition drop_check (c : ctx) (r : text) (c' : ctx) : bool :=
  denotes_b c (txt "b") 88 && opt_is (reduction_of (c_snap c) 88) 91 && text_eqb r [] &&
  match reduction_of (c_snap c') 88 with None => true | _ => false end.
Lemma drop_checked :
  on_session (run_session cfg0 fuel0 (map txt drop_commands) context0) (then_command "drop a" drop_check) = true.
Proof. vm_compute. reflexivity. Qed.

Theorem C25_query_forgets_refuted :
  exists c c' b x, reachable true c /\ execute cfg0 fuel0 (txt "drop a") c = Ok ([], c') /\
    denotes c (txt "b") b /\ reduces (c_snap c) b x /\ (forall y, ~ reduces (c_snap c') b y) /\
    ~ same_meaning (c_snap c) (c_snap c').
Proof.
  destruct (session_witness _ _ drop_checked) as (rs & c & _ & R & K).
  apply then_command_ok in K. destruct K as (r & c' & E & K). unfold drop_check in K.
  apply andb_prop in K. destruct K as [K K4]. apply andb_prop in K. destruct K as [K K3].
  apply andb_prop in K. destruct K as [K1 K2]. apply opt_is_eq in K2. apply reduction_of_reduces in K2.
  destruct (text_eqb_spec r []) as [->|]; [|discriminate].
  assert (N : forall y, ~ reduces (c_snap c') 88 y).
  { intros y H. apply reduction_of_reduces in H. rewrite H in K4. discriminate. }
  exists c, c', 88, 91. split; [exact R|]. split; [exact E|]. split; [apply denotes_b_ok, K1|].
  split; [exact K2|]. split; [exact N|]. intros S. apply (N 91). apply S; [|exact K2].
  destruct K2 as (cc & _ & L & _). congruence.
Qed.
Print Assumptions C25_query_forgets_refuted.

(** A command that is answered with something other than an error message changes nothing
    about any existing concept. [same_meaning] (FrameSpec.v): the same reduction, the same
    composition, the same text and kind, the same label. Missing for the whole of C25:
    commands without `let` and `forget` that are answered with nothing or with an error. *)
Theorem C25_answered_query_keeps_meaning_partial b c cfg fuel command answer c' :
  fair cfg -> reachable b c -> execute cfg fuel command c = Ok (answer, c') ->
  answer <> [] -> (forall e, answer <> error_text e) ->
  same_meaning (c_snap c) (c_snap c').
Proof. intros F R. exact (quiet_same_meaning cfg fuel command c answer c' F (reachable_ready b c R)). Qed.
Print Assumptions C25_answered_query_keeps_meaning_partial.

(** The hypotheses are met by the question `foo a` that introduces a new symbol in a store
    where [a] reduces to [b]: the store grows by three concepts, and the answer is `foo b`. *)
Definition query_check (c : ctx) (r : text) (c' : ctx) : bool :=
  text_eqb r (txt "foo b") && Nat.ltb (size (c_snap c)) (size (c_snap c')).
Lemma query_checked :
  on_session (run_session cfg0 fuel0 (map txt ["let (a -> b)"]) context0) (then_command "foo a" query_check) = true.
Proof. vm_compute. reflexivity. Qed.
Example C25_applies : exists c c', reachable true c /\
  execute cfg0 fuel0 (txt "foo a") c = Ok (txt "foo b", c') /\ size (c_snap c) < size (c_snap c') /\
  same_meaning (c_snap c) (c_snap c').
Proof.
  destruct (session_witness _ _ query_checked) as (rs & c & _ & R & K).
  apply then_command_ok in K. destruct K as (r & c' & E & K). unfold query_check in K.
  apply andb_prop in K. destruct K as [K1 K2].
  destruct (text_eqb_spec r (txt "foo b")) as [->|]; [|discriminate].
  exists c, c'. split; [exact R|]. split; [exact E|]. split; [apply PeanoNat.Nat.ltb_lt, K2|].
  apply (C25_answered_query_keeps_meaning_partial true c cfg0 fuel0 _ _ c' fair0 R E); [discriminate|].
  intros e H. destruct e; try discriminate H.
  apply (f_equal (@List.length _)) in H. unfold error_text in H. rewrite !app_length in H. cbn in H. lia.
Qed.

(** ** C44 *)

(** A definition that fails may already have renamed a concept: `let foo := (c d)` is
    answered with an error, yet the concept that carried the name `p` before is called `c`
    afterwards. *)
Definition half_done_commands := ["let foo := (p q)"; "let r -> s"; "let q := r"].
Definition half_done_error : zia_error :=
  RedundantReduction (txt "label_of constant CommittedConceptId: 89v1").
Definition half_done_check (c : ctx) (r : text) (c' : ctx) : bool :=
  text_eqb r (error_text half_done_error) &&
  denotes_b c (txt "p") 85 && carries (c_snap c) 85 (txt "p") && carries (c_snap c') 85 (txt "c") &&
  opt_is (reduction_of (c_snap c) 84) 83 && opt_is (reduction_of (c_snap c') 84) 96.
Lemma half_done_checked :
  on_session (run_session cfg0 fuel0 (map txt half_done_commands) context0)
    (then_command "let foo := (c d)" half_done_check) = true.
Proof. vm_compute. reflexivity. Qed.

Theorem C44_failed_definition_renames_refuted :
  exists c c' e p, reachable true c /\
    execute cfg0 fuel0 (txt "let foo := (c d)") c = Ok (error_text e, c') /\
    denotes c (txt "p") p /\ carries_label (c_snap c) p (txt "p") /\ carries_label (c_snap c') p (txt "c") /\
    ~ same_meaning (c_snap c) (c_snap c').
Proof.
  destruct (session_witness _ _ half_done_checked) as (rs & c & _ & R & K).
  apply then_command_ok in K. destruct K as (r & c' & E & K). unfold half_done_check in K.
  apply andb_prop in K. destruct K as [K K6]. apply andb_prop in K. destruct K as [K K5].
  apply andb_prop in K. destruct K as [K K4]. apply andb_prop in K. destruct K as [K K3].
  apply andb_prop in K. destruct K as [K1 K2].
  destruct (text_eqb_spec r (error_text half_done_error)) as [->|]; [|discriminate].
  apply opt_is_eq in K5, K6. apply reduction_of_reduces in K5, K6.
  exists c, c', half_done_error, 85. split; [exact R|]. split; [exact E|].
  split; [apply denotes_b_ok, K2|]. split; [apply carries_label_of, K3|]. split; [apply carries_label_of, K4|].
  intros S. assert (L : lookup (c_snap c) 84 <> None) by (destruct K5 as (x & _ & L & _); congruence).
  destruct (S 84 L) as [SR _]. apply SR in K5.
  apply reduction_of_reduces in K5, K6. congruence.
Qed.
Print Assumptions C44_failed_definition_renames_refuted.
