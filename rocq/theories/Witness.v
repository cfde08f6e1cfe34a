(** Sessions of commands that refute a property, run once in the model. *)
From Verif Require Import Start Snapshot StoreSpec MapFacts AstFacts RangeFacts History Sample.
From Coq Require Import String List Bool Relations.
Import ListNotations.
Local Open Scope string_scope.

Definition on_session (x : outcome (list text * ctx)) (check : list text -> ctx -> bool) : bool :=
  match x with Ok (rs, c) => check rs c | _ => false end.
Lemma on_session_ok x check :
  on_session x check = true -> exists rs c, x = Ok (rs, c) /\ check rs c = true.
Proof. destruct x as [[rs c]| | |]; intros E; try discriminate E. exists rs, c. split; [reflexivity|exact E]. Qed.
Lemma session_witness cmds check :
  on_session (run_session cfg0 fuel0 (map txt cmds) context0) check = true ->
  exists rs c, run_session cfg0 fuel0 (map txt cmds) context0 = Ok (rs, c) /\
               reachable true c /\ check rs c = true.
Proof.
  intros E. destruct (on_session_ok _ _ E) as (rs & c & Er & Ec). exists rs, c.
  split; [exact Er|]. split; [|exact Ec].
  exact (reachable_session cfg0 fuel0 fair0 _ context0 _ c context0_reachable Er).
Qed.

(** Deciding what the store says. *)
Definition reduction_of (s : snapshot) (n : nat) : option nat :=
  match lookup s n with
  | Some c => match c_spec c with Abstract _ r => r | _ => None end
  | None => None
  end.
Lemma reduction_of_reduces s n r : reduction_of s n = Some r <-> reduces s n r.
Proof.
  unfold reduction_of, reduces. split.
  - destruct (lookup s n) as [c|]; [|discriminate]. destruct (c_spec c) as [|comp r'|] eqn:E; try discriminate.
    intros ->. exists c, comp. split; [reflexivity|exact E].
  - intros (c & comp & -> & ->). reflexivity.
Qed.
Definition composition_of (s : snapshot) (n : nat) : option (nat * nat) :=
  match lookup s n with
  | Some c => match c_spec c with Abstract (Comp l r _ _) _ => Some (l, r) | _ => None end
  | None => None
  end.
Lemma composition_of_composed s n l r : composition_of s n = Some (l, r) <-> composed s n l r.
Proof.
  unfold composition_of, composed. split.
  - destruct (lookup s n) as [c|]; [|discriminate].
    destruct (c_spec c) as [|[l' r' fv bv|] red|] eqn:E; try discriminate.
    intros E'. injection E' as -> ->. exists c, fv, bv, red. split; [reflexivity|exact E].
  - intros (c & fv & bv & red & -> & ->). reflexivity.
Qed.
Definition listed_from (s : snapshot) (r : nat) : list nat :=
  match lookup s r with Some c => reduces_from c | None => [] end.
Lemma listed_from_lists s r n : In n (listed_from s r) <-> lists_reduction_from s r n.
Proof.
  unfold listed_from, lists_reduction_from. split.
  - destruct (lookup s r) as [c|]; [|intros []]. intros I. exists c. split; [reflexivity|exact I].
  - intros (c & -> & I). exact I.
Qed.
Definition left_entry (s : snapshot) (l r : nat) : option nat :=
  match lookup s l with Some c => aget Nat.eqb r (lefthand_of c) | None => None end.
Lemma left_entry_lists s l r n : left_entry s l r = Some n <-> lists_left_composition s l r n.
Proof.
  unfold left_entry, lists_left_composition. split.
  - destruct (lookup s l) as [c|]; [|discriminate]. intros E. exists c. split; [reflexivity|exact E].
  - intros (c & -> & E). exact E.
Qed.

Definition opt_is (o : option nat) (n : nat) : bool := option_eqb Nat.eqb o (Some n).
Lemma opt_is_eq o n : opt_is o n = true -> o = Some n.
Proof. destruct o as [m|]; [|discriminate]. intros E. apply PeanoNat.Nat.eqb_eq in E. congruence. Qed.

(** C14 *)
Definition stale_list_commands := ["let a -> _x_"; "let a -> b"].
Definition stale_list_check (_ : list text) (c : ctx) : bool :=
  existsb (Nat.eqb 82) (listed_from (c_snap c) 83) && opt_is (reduction_of (c_snap c) 82) 86.
Lemma stale_list_checked :
  on_session (run_session cfg0 fuel0 (map txt stale_list_commands) context0) stale_list_check = true.
Proof. vm_compute. reflexivity. Qed.
Lemma stale_list :
  exists c, reachable true c /\ ~ listed_reductions_are_real (c_snap c).
Proof.
  destruct (session_witness _ _ stale_list_checked) as (rs & c & _ & R & E).
  exists c. split; [exact R|]. intros H.
  unfold stale_list_check in E. apply andb_prop in E. destruct E as [E1 E2].
  apply existsb_exists in E1. destruct E1 as (n & I & En). apply PeanoNat.Nat.eqb_eq in En. subst n.
  apply listed_from_lists in I. apply H in I. apply reduction_of_reduces in I.
  apply opt_is_eq in E2. rewrite E2 in I. discriminate I.
Qed.

(** C15 *)
Definition stale_hand_commands :=
  ["let x := p q"; "let a -> x"; "let (mylet (-> let))"; "mylet (a := b c)"].
Definition stale_hand_check (_ : list text) (c : ctx) : bool :=
  opt_is (left_entry (c_snap c) 85 88) 82 &&
  match composition_of (c_snap c) 82 with Some (l, _) => Nat.eqb l 97 | None => false end.
Lemma stale_hand_checked :
  on_session (run_session cfg0 fuel0 (map txt stale_hand_commands) context0) stale_hand_check = true.
Proof. vm_compute. reflexivity. Qed.
Lemma stale_hand :
  exists c, reachable true c /\ ~ listed_compositions_are_real (c_snap c).
Proof.
  destruct (session_witness _ _ stale_hand_checked) as (rs & c & _ & R & E).
  exists c. split; [exact R|]. intros H.
  unfold stale_hand_check in E. apply andb_prop in E. destruct E as [E1 E2].
  apply opt_is_eq in E1. apply left_entry_lists in E1.
  specialize (H 82 85 88 (or_introl E1)). apply composition_of_composed in H. rewrite H in E2.
  discriminate E2.
Qed.

(** C16 *)
Definition renamed_true_commands := ["let foo := true"].
Definition renamed_true_check (_ : list text) (c : ctx) : bool :=
  match concept_from_label cfg0 (c_snap c) (c_delta c) fuel0 (txt "true") with
  | Ok None => true
  | _ => false
  end.
Lemma renamed_true_checked :
  on_session (run_session cfg0 fuel0 (map txt renamed_true_commands) context0) renamed_true_check = true.
Proof. vm_compute. reflexivity. Qed.
Lemma renamed_true :
  exists c, reachable true c /\
    concept_from_label cfg0 (c_snap c) (c_delta c) fuel0 (txt "true") = Ok None.
Proof.
  destruct (session_witness _ _ renamed_true_checked) as (rs & c & _ & R & E).
  exists c. split; [exact R|]. unfold renamed_true_check in E.
  destruct (concept_from_label _ _ _ _ _) as [[?|]| | |]; try discriminate E. reflexivity.
Qed.

(** C21 *)
Definition cycle_commands := ["let a -> _x_"; "let b -> a"; "let a -> b"].
Definition cycle_check (rs : list text) (c : ctx) : bool :=
  opt_is (reduction_of (c_snap c) 82) 86 && opt_is (reduction_of (c_snap c) 86) 82.
Lemma cycle_checked :
  on_session (run_session cfg0 fuel0 (map txt cycle_commands) context0) cycle_check = true.
Proof. vm_compute. reflexivity. Qed.
Lemma cycle :
  exists c n, reachable true c /\ clos_trans nat (reduces (c_snap c)) n n.
Proof.
  destruct (session_witness _ _ cycle_checked) as (rs & c & _ & R & E).
  unfold cycle_check in E. apply andb_prop in E. destruct E as [E1 E2].
  apply opt_is_eq in E1. apply opt_is_eq in E2.
  apply reduction_of_reduces in E1. apply reduction_of_reduces in E2.
  exists c, 82. split; [exact R|]. eapply t_trans; apply t_step; eassumption.
Qed.

(** Outcomes of one more command. *)
Definition crashes_at (site : string) (x : outcome (text * ctx)) : bool :=
  match x with Panic s => String.eqb s site | _ => false end.
Lemma crashes_at_eq site x : crashes_at site x = true -> x = Panic site.
Proof.
  intros E. destruct x as [| |s|]; try discriminate E. apply String.eqb_eq in E. congruence.
Qed.
Definition answers (t : text) (x : outcome (text * ctx)) : bool :=
  match x with Ok (r, _) => text_eqb r t | _ => false end.
Lemma answers_eq t x : answers t x = true -> exists c', x = Ok (t, c').
Proof.
  intros E. destruct x as [[r c']| | |]; try discriminate E. cbn [answers] in E.
  destruct (text_eqb_spec r t) as [->|]; [|discriminate E]. exists c'. reflexivity.
Qed.
Definition all_empty (rs : list text) : bool := forallb (fun r => text_eqb r []) rs.
Lemma all_empty_eq rs : all_empty rs = true -> Forall (eq []) rs.
Proof.
  unfold all_empty. intros E. rewrite forallb_forall in E. apply Forall_forall. intros r I.
  specialize (E _ I). cbn in E. destruct (text_eqb_spec r []); congruence.
Qed.

Lemma run_session_length cfg fuel cmds c rs c' :
  run_session cfg fuel cmds c = Ok (rs, c') -> List.length rs = List.length cmds.
Proof.
  revert c rs. induction cmds as [|t cmds IH]; intros c rs E; cbn [run_session] in E.
  - injection E as <- _. reflexivity.
  - destruct (execute cfg fuel t c) as [[r c1]| | |]; cbn [obind] in E; try discriminate E.
    destruct (run_session cfg fuel cmds c1) as [[rs' c2]| | |] eqn:E1; cbn [obind] in E; try discriminate E.
    injection E as <- <-. cbn. rewrite (IH _ _ E1). reflexivity.
Qed.
Lemma all_empty_repeat rs : all_empty rs = true -> rs = repeat [] (List.length rs).
Proof.
  intros E. apply all_empty_eq in E. induction E as [|r rs <- _ IH]; [reflexivity|].
  cbn. rewrite <- IH. reflexivity.
Qed.

(** C10 *)
Definition left_assoc_commands := ["let assoc c -> left"; "let assoc d -> left"; "let assoc e -> left"].
Definition left_assoc_check (rs : list text) (c : ctx) : bool :=
  all_empty rs && crashes_at "slice index out of range" (execute cfg0 fuel0 (txt "c d e") c).
Lemma left_assoc_checked :
  on_session (run_session cfg0 fuel0 (map txt left_assoc_commands) context0) left_assoc_check = true.
Proof. vm_compute. reflexivity. Qed.
Lemma left_assoc :
  exists c, reachable true c /\
    run_session cfg0 fuel0 (map txt left_assoc_commands) context0 = Ok ([[]; []; []], c) /\
    execute cfg0 fuel0 (txt "c d e") c = Panic "slice index out of range".
Proof.
  destruct (session_witness _ _ left_assoc_checked) as (rs & c & E0 & R & E).
  exists c. split; [exact R|]. unfold left_assoc_check in E. apply andb_prop in E. destruct E as [E1 E2].
  split; [|exact (crashes_at_eq _ _ E2)].
  pose proof (run_session_length _ _ _ _ _ _ E0) as L.
  rewrite (all_empty_repeat _ E1), L in E0. exact E0.
Qed.

(** C11 *)
(** The nesting of an expression and the symbols at its leaves. *)
Inductive shape := SSymbol (s : text) | SPair (l r : shape).
Fixpoint shape_of (t : tree) : shape :=
  match t with
  | TLeaf s _ _ => SSymbol s
  | TBranch _ _ l r _ _ => SPair (shape_of l) (shape_of r)
  end.
Definition parsed (x : outcome (zres tree * ctx)) : option tree :=
  match x with Ok (Val t, _) => Some t | _ => None end.
Definition grouped : shape :=
  SPair (SPair (SPair (SSymbol (txt "a")) (SSymbol (txt "b"))) (SSymbol (txt "c"))) (SSymbol (txt "d")).
Definition regrouped : shape :=
  SPair (SPair (SSymbol (txt "a")) (SSymbol (txt "b"))) (SPair (SSymbol (txt "c")) (SSymbol (txt "d"))).
Lemma printing_regroups :
  exists t t',
    parsed (ast_from_expression cfg0 fuel0 (txt "((a b) c) d") context0) = Some t /\
    parsed (ast_from_expression cfg0 fuel0 (display t) context0) = Some t' /\
    shape_of t = grouped /\ shape_of t' = regrouped.
Proof.
  eexists. eexists. split; [vm_compute; reflexivity|]. split; [vm_compute; reflexivity|].
  split; reflexivity.
Qed.
Definition printed_check (rs : list text) (c : ctx) : bool :=
  answers (txt "e") (execute cfg0 fuel0 (txt "((a b) c) d") c) &&
  answers (txt "(a b c) d") (execute cfg0 fuel0 (txt "(a b c) d") c) &&
  answers (txt "(a b c) d") (execute cfg0 fuel0 (txt "((a b) c) d") context0).
Lemma printed_checked :
  on_session (run_session cfg0 fuel0 (map txt ["let (((a b) c) d) -> e"]) context0) printed_check = true.
Proof. vm_compute. reflexivity. Qed.
Lemma printed_differs :
  exists c c1 c2 c3, reachable true c /\
    execute cfg0 fuel0 (txt "((a b) c) d") context0 = Ok (txt "(a b c) d", c1) /\
    execute cfg0 fuel0 (txt "((a b) c) d") c = Ok (txt "e", c2) /\
    execute cfg0 fuel0 (txt "(a b c) d") c = Ok (txt "(a b c) d", c3).
Proof.
  destruct (session_witness _ _ printed_checked) as (rs & c & _ & R & E).
  unfold printed_check in E. apply andb_prop in E. destruct E as [E E3].
  apply andb_prop in E. destruct E as [E1 E2].
  apply answers_eq in E1, E2, E3. destruct E1 as [c2 E1]. destruct E2 as [c3 E2]. destruct E3 as [c1 E3].
  exists c, c1, c2, c3. split; [exact R|]. split; [exact E3|]. split; [exact E1|exact E2].
Qed.

(** C23 *)
Definition crashing : list (string * string) :=
  [("let b b -> c", "commit_new_concept_with_dependent_concepts");
   ("let a := b b", "write_concepts");
   ("let true -> false", "Cannot reduce a concrete concept");
   ("let false", "Cannot reduce a concrete concept");
   ("let _x_ := true", "No label to remove")].
Lemma crashing_checked :
  forallb (fun '(cmd, site) => crashes_at site (execute cfg0 fuel0 (txt cmd) context0)) crashing = true.
Proof. vm_compute. reflexivity. Qed.
Lemma commands_crash :
  forall cmd site, In (cmd, site) crashing -> execute cfg0 fuel0 (txt cmd) context0 = Panic site.
Proof.
  intros cmd site I. pose proof crashing_checked as K. rewrite forallb_forall in K.
  exact (crashes_at_eq _ _ (K _ I)).
Qed.

(** C26, C36 *)
Definition forget_cache (c : ctx) : ctx :=
  Ctx (c_snap c) (c_delta c) empty_cache (c_vars c) (c_bound c) (pinned c) (c_tick c).
Definition stale_cache_commands := ["let _x_ foo -> bar _x_"].
Definition stale_cache_check (_ : list text) (c : ctx) : bool :=
  match execute cfg0 fuel0 (txt "new foo") c with
  | Ok (r, c1) =>
    text_eqb r (txt "bar new") && crashes_at "No concept with id" (execute cfg0 fuel0 (txt "new foo") c1)
    && answers (txt "bar new") (execute cfg0 fuel0 (txt "new foo") (forget_cache c1))
  | _ => false
  end.
Lemma stale_cache_checked :
  on_session (run_session cfg0 fuel0 (map txt stale_cache_commands) context0) stale_cache_check = true.
Proof. vm_compute. reflexivity. Qed.
Lemma stale_cache :
  exists c c1 c2, reachable true c /\
    execute cfg0 fuel0 (txt "new foo") c = Ok (txt "bar new", c1) /\
    execute cfg0 fuel0 (txt "new foo") c1 = Panic "No concept with id" /\
    execute cfg0 fuel0 (txt "new foo") (forget_cache c1) = Ok (txt "bar new", c2).
Proof.
  destruct (session_witness _ _ stale_cache_checked) as (rs & c & _ & R & E).
  unfold stale_cache_check in E.
  destruct (execute cfg0 fuel0 (txt "new foo") c) as [[r c1]| | |] eqn:E1; try discriminate E.
  apply andb_prop in E. destruct E as [E E4]. apply andb_prop in E. destruct E as [E2 E3].
  apply answers_eq in E4. destruct E4 as [c2 E4]. apply crashes_at_eq in E3.
  destruct (text_eqb_spec r (txt "bar new")) as [->|]; [|discriminate E2].
  exists c, c1, c2. split; [exact R|]. split; [exact E1|]. split; [exact E3|exact E4].
Qed.

(** C30 *)
Definition conflated_check (_ : list text) (c : ctx) : bool :=
  answers (txt "true") (execute cfg0 fuel0 (txt "(((a b) c) d) same ((a b c) d)") c).
Lemma conflated_checked :
  on_session (run_session cfg0 fuel0 (map txt ["let _x_ same _x_ -> true"]) context0)
             conflated_check = true.
Proof. vm_compute. reflexivity. Qed.
Lemma conflated :
  exists rs c c', reachable true c /\
    run_session cfg0 fuel0 (map txt ["let _x_ same _x_ -> true"]) context0 = Ok (rs, c) /\
    execute cfg0 fuel0 (txt "(((a b) c) d) same ((a b c) d)") c = Ok (txt "true", c').
Proof.
  destruct (session_witness _ _ conflated_checked) as (rs & c & E0 & R & E).
  apply answers_eq in E. destruct E as [c' E]. exists rs, c, c'.
  split; [exact R|]. split; [exact E0|exact E].
Qed.

(** C43 *)
Definition indirect_check (_ : list text) (c : ctx) : bool :=
  match execute cfg0 fuel0 (txt "a") c with
  | Ok (r, c1) =>
    text_eqb r (error_text MultiplePointersToDelta) &&
    answers (txt "b") (execute cfg0 fuel0 (txt "b") c1)
  | _ => false
  end &&
  match execute cfg0 fuel0 (txt "let b -> c") c with
  | Ok (r, c2) => text_eqb r [] && answers (txt "c") (execute cfg0 fuel0 (txt "b") c2)
  | _ => false
  end.
Lemma indirect_checked :
  on_session (run_session cfg0 fuel0 (map txt ["let a -> (let b -> c)"]) context0)
             indirect_check = true.
Proof. vm_compute. reflexivity. Qed.
Lemma indirect :
  exists c c1 c1' c2 c2', reachable true c /\
    execute cfg0 fuel0 (txt "a") c = Ok (error_text MultiplePointersToDelta, c1) /\
    execute cfg0 fuel0 (txt "b") c1 = Ok (txt "b", c1') /\
    execute cfg0 fuel0 (txt "let b -> c") c = Ok ([], c2) /\
    execute cfg0 fuel0 (txt "b") c2 = Ok (txt "c", c2').
Proof.
  destruct (session_witness _ _ indirect_checked) as (rs & c & _ & R & E).
  unfold indirect_check in E. apply andb_prop in E. destruct E as [Ea Eb].
  destruct (execute cfg0 fuel0 (txt "a") c) as [[r c1]| | |] eqn:E1; try discriminate Ea.
  destruct (execute cfg0 fuel0 (txt "let b -> c") c) as [[r' c2]| | |] eqn:E2; try discriminate Eb.
  apply andb_prop in Ea. destruct Ea as [Ea1 Ea2]. apply andb_prop in Eb. destruct Eb as [Eb1 Eb2].
  apply answers_eq in Ea2, Eb2. destruct Ea2 as [c1' Ea2]. destruct Eb2 as [c2' Eb2].
  destruct (text_eqb_spec r (error_text MultiplePointersToDelta)) as [->|]; [|discriminate Ea1].
  destruct (text_eqb_spec r' []) as [->|]; [|discriminate Eb1].
  exists c, c1, c1', c2, c2'. split; [exact R|]. split; [exact E1|]. split; [exact Ea2|].
  split; [exact E2|exact Eb2].
Qed.
