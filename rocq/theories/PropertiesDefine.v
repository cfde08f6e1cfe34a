(** Definitions `let n := l r`: the first half of C41, and a part of C44. *)
From Verif Require Import Start Snapshot Context StoreSpec NameSpec FrameSpec MapFacts AstFacts RangeFacts History
  Steps Sample Witness NameWitness Quiet Frames Reductions Declare Define PropertiesFrames PropertiesReductions.
From Coq Require Import String List Bool Relations PeanoNat Lia.
Import ListNotations.
Local Open Scope string_scope.

(** ** C41, first half *)

(** A command read as `let n := l r`, where [n] is a symbol: if it is answered with an error
    then nothing about any existing concept is different; otherwise the concept of [n] is
    the composition of the concepts of [l] and [r], every other existing concept keeps its
    composition, every existing concept its reduction, text and kind, and its name unless
    [n] itself is the composition that names it.  Missing: that the concept read for a fresh
    [n] is the one with the name [n] (shown for an instance below); redefinitions, for which
    the claim is false (PropertiesCommand.v). *)
Theorem C41_definition_takes_effect_partial bd c cfg fuel command answer c' n old i l r :
  fair cfg -> reachable bd c -> reads_as_definition cfg fuel c command n old ->
  t_exp n = None -> t_concept n = Some i -> t_exp old = Some (l, r) ->
  execute cfg fuel command c = Ok (answer, c') ->
  (exists e, answer = error_text e /\ same_meaning (c_snap c) (c_snap c')) \/
  (answer = [] /\ exists xl xr, composed (c_snap c') (place (c_snap c) i) xl xr /\
     (forall j, t_concept l = Some j -> xl = place (c_snap c) j) /\
     (forall j, t_concept r = Some j -> xr = place (c_snap c) j) /\
     only_composition_of (place (c_snap c) i) (c_snap c) (c_snap c')).
Proof. intros F R. exact (defined cfg fuel command c answer c' n old i l r F (reachable_ready bd c R)). Qed.
Print Assumptions C41_definition_takes_effect_partial.

Definition as_definition (c : ctx) (command : string) : option (tree * tree) :=
  match read_tree cfg0 fuel0 (txt command) c with
  | Ok (Val t, _) =>
    match t_concept t, t_exp t with
    | None, Some (tl, ta) =>
      match t_exp ta with
      | Some (a, p) =>
        match t_exp p with
        | Some (ar, b) =>
          if is_built_in (c_snap c) tl CLet && is_built_in (c_snap c) ar CDefine then Some (a, b) else None
        | None => None
        end
      | None => None
      end
    | _, _ => None
    end
  | _ => None
  end.
Lemma as_definition_ok c command a b :
  as_definition c command = Some (a, b) -> reads_as_definition cfg0 fuel0 c (txt command) a b.
Proof.
  unfold as_definition. destruct (read_tree _ _ _ _) as [[[t|e] c1]| | |] eqn:R; try discriminate.
  destruct (t_concept t) eqn:T1; [discriminate|]. destruct (t_exp t) as [[tl ta]|] eqn:T2; [|discriminate].
  destruct (t_exp ta) as [[a' p]|] eqn:T3; [|discriminate]. destruct (t_exp p) as [[ar b']|] eqn:T4; [|discriminate].
  destruct (is_built_in _ tl _ && is_built_in _ ar _)%bool eqn:B; [|discriminate].
  apply andb_prop in B. destruct B as [B1 B2].
  apply is_built_in_ok in B1, B2. destruct B1 as (nl & N1 & B1). destruct B2 as (na & N2 & B2).
  intros E. injection E as -> ->. exists t, c1, tl, ta, p, ar, nl, na. auto 10.
Qed.
Definition committed_at (o : option cid) (k : nat) : bool :=
  match o with Some (Committed n) => Nat.eqb n k | _ => false end.
Lemma committed_at_eq o k : committed_at o k = true -> o = Some (Committed k).
Proof. destruct o as [[n|]|]; try discriminate. cbn. intros E. apply Nat.eqb_eq in E. congruence. Qed.

(** The hypotheses are met by `let n := a b` in a store where [a], the concept 82, reduces to
    [b], the concept 85: [n] becomes the concept 88. *)
Definition define_check (c : ctx) (r : text) (c' : ctx) : bool :=
  text_eqb r [] && opt_is (reduction_of (c_snap c) 82) 85 && Nat.eqb (size (c_snap c)) 86 &&
  carries (c_snap c') 88 (txt "n") &&
  match as_definition c "let n := a b" with
  | Some (n, old) =>
    match t_exp n, t_concept n, t_exp old with
    | None, Some (Uncommitted 2), Some (a, b) => committed_at (t_concept a) 82 && committed_at (t_concept b) 85
    | _, _, _ => false
    end
  | None => false end.
Lemma define_checked :
  on_session (run_session cfg0 fuel0 (map txt ["let a -> b"]) context0)
    (then_command "let n := a b" define_check) = true.
Proof. vm_compute. reflexivity. Qed.

Example C41_applies : exists c c' n old a b, reachable true c /\ reduces (c_snap c) 82 85 /\
  reads_as_definition cfg0 fuel0 c (txt "let n := a b") n old /\ t_exp n = None /\
  t_concept n = Some (Uncommitted 2) /\ t_exp old = Some (a, b) /\
  execute cfg0 fuel0 (txt "let n := a b") c = Ok ([], c') /\
  carries_label (c_snap c') 88 (txt "n") /\ composed (c_snap c') 88 82 85 /\ reduces (c_snap c') 82 85.
Proof.
  destruct (session_witness _ _ define_checked) as (rs & c & _ & R & K).
  apply then_command_ok in K. destruct K as (r & c' & E & K). unfold define_check in K.
  apply andb_prop in K. destruct K as [K K5]. apply andb_prop in K. destruct K as [K K4].
  apply andb_prop in K. destruct K as [K K3]. apply andb_prop in K. destruct K as [K1 K2].
  destruct (text_eqb_spec r []) as [->|]; [|discriminate].
  apply opt_is_eq, reduction_of_reduces in K2. apply Nat.eqb_eq in K3. apply carries_label_of in K4.
  destruct (as_definition c _) as [[n old]|] eqn:A; [|discriminate]. apply as_definition_ok in A.
  destruct (t_exp n) eqn:N1; [discriminate|]. destruct (t_concept n) as [[|[|[|[|]]]]|] eqn:N2; try discriminate.
  destruct (t_exp old) as [[a b]|] eqn:O; [|discriminate].
  apply andb_prop in K5. destruct K5 as [K5 K6]. apply committed_at_eq in K5, K6.
  exists c, c', n, old, a, b. do 7 (split; [assumption|]). split; [exact K4|].
  destruct (C41_definition_takes_effect_partial true c cfg0 fuel0 _ [] c' n old _ a b fair0 R A N1 N2 O E)
    as [(e & H & _)|(_ & xl & xr & C & X & Y & F)].
  - destruct (error_not_empty e). symmetry. exact H.
  - specialize (X _ K5). specialize (Y _ K6). cbn in X, Y. subst xl xr.
    unfold place in C. fold (size (c_snap c)) in C. rewrite K3 in C. split; [exact C|].
    destruct (F 82) as [S _]; [|apply S, K2]. destruct K2 as (k & _ & L & _). congruence.
Qed.

(** ** C44, definitions of a symbol *)
(** A definition of a symbol that is answered with an error changes nothing.  Missing for
    the whole of C44: definitions of other expressions (refuted in PropertiesFrames.v). *)
Theorem C44_failed_definition_of_a_symbol_changes_nothing_partial bd c cfg fuel command e c' n old i l r :
  fair cfg -> reachable bd c -> reads_as_definition cfg fuel c command n old ->
  t_exp n = None -> t_concept n = Some i -> t_exp old = Some (l, r) ->
  execute cfg fuel command c = Ok (error_text e, c') -> same_meaning (c_snap c) (c_snap c').
Proof.
  intros F R A N1 N2 O E.
  destruct (C41_definition_takes_effect_partial bd c cfg fuel command _ c' n old i l r F R A N1 N2 O E)
    as [(e' & _ & S)|(H & _)]; [exact S|]. destruct (error_not_empty e H).
Qed.
Print Assumptions C44_failed_definition_of_a_symbol_changes_nothing_partial.

(** The definition `let a := a b` is refused. *)
Definition refuse_check (c : ctx) (r : text) (c' : ctx) : bool :=
  text_eqb r (error_text InfiniteComposition) && opt_is (reduction_of (c_snap c) 82) 85 &&
  match as_definition c "let a := a b" with
  | Some (n, old) =>
    match t_exp n, t_exp old with None, Some _ => committed_at (t_concept n) 82 | _, _ => false end
  | None => false end.
Lemma refuse_checked :
  on_session (run_session cfg0 fuel0 (map txt ["let a -> b"]) context0)
    (then_command "let a := a b" refuse_check) = true.
Proof. vm_compute. reflexivity. Qed.
Example C44_definition_applies : exists c c' n old a b, reachable true c /\ reduces (c_snap c) 82 85 /\
  reads_as_definition cfg0 fuel0 c (txt "let a := a b") n old /\ t_exp n = None /\
  t_concept n = Some (Committed 82) /\ t_exp old = Some (a, b) /\
  execute cfg0 fuel0 (txt "let a := a b") c = Ok (error_text InfiniteComposition, c') /\
  reduces (c_snap c') 82 85.
Proof.
  destruct (session_witness _ _ refuse_checked) as (rs & c & _ & R & K).
  apply then_command_ok in K. destruct K as (r & c' & E & K). unfold refuse_check in K.
  apply andb_prop in K. destruct K as [K K3]. apply andb_prop in K. destruct K as [K1 K2].
  destruct (text_eqb_spec r (error_text InfiniteComposition)) as [->|]; [|discriminate].
  apply opt_is_eq, reduction_of_reduces in K2.
  destruct (as_definition c _) as [[n old]|] eqn:A; [|discriminate]. apply as_definition_ok in A.
  destruct (t_exp n) eqn:N1; [discriminate|]. destruct (t_exp old) as [[a b]|] eqn:O; [|discriminate].
  apply committed_at_eq in K3.
  exists c, c', n, old, a, b. do 7 (split; [assumption|]).
  apply (C44_failed_definition_of_a_symbol_changes_nothing_partial true c cfg0 fuel0 _ _ c' n old _ a b
           fair0 R A N1 K3 O E); [|exact K2].
  destruct K2 as (k & _ & L & _). congruence.
Qed.
