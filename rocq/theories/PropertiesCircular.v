(** C24: concepts that imply one another are never answered. *)
From Verif Require Import Lexer LexerSpec Start Snapshot Search Context StoreSpec StoreInv MapFacts AstSpec AstFacts StoreFacts RangeFacts History
  StoreLaws OneName NameSpec Names Displays SearchCaches Existence Wide Matches Implications Asking Links Keyed Sample Witness
  NameWitness Frames PropertiesAsking Shapes Unruled Answers Replies PropertiesAnswers Circular.
From Coq Require Import String List Bool PeanoNat Relations.
Import ListNotations.
Local Open Scope string_scope.

(** A word for a symbol in a circle of implications is never answered right after a change to the store: the
    symbol is true if the symbol that implies it is, that one if the next is, and so on for ever.  The circle
    may have any length, its symbols may imply others, and each may be implied by several symbols as long as
    these belong to it too.  For every history in which no composition is replaced or removed, every hash
    order, every bound on the work and both build modes.  In the program the recursion ends with the stack. *)
Theorem C24_circular_implications_are_never_answered b cfg fuel c S k w answer c' :
  fair cfg -> dbg cfg = b -> reachable_with b (links_safe b) c -> c_cache c = empty_cache ->
  circle (c_snap c) S -> S k -> means (c_snap c) w k -> goes_by (c_snap c) k w -> is_variable_text w = false ->
  execute cfg fuel w c <> Ok (answer, c').
Proof.
  intros F D R K SC H Me G V. pose proof (reachable_without _ _ _ R) as R0.
  pose proof (sane_numbers _ (ready_sane _ (reachable_ready b c R0))) as N.
  destruct (links_agree_reachable b c R) as (LC & LR & UC).
  destruct (reachable_built_in b c R0 CLabel) as (lab & BL & _ & UL & _ & _ & CI).
  destruct (reachable_built_in b c R0 CImplication) as (imp & BM & _ & UM & _ & _ & CM).
  rewrite (concrete_id_plain cfg0 _ _ fair0) in CI. rewrite <- (concrete_id_plain cfg _ _ F) in CI.
  rewrite (concrete_id_plain cfg0 _ _ fair0) in CM. rewrite <- (concrete_id_plain cfg _ _ F) in CM.
  assert (UL' : forall x y, built_in (c_snap c) x CLabel -> built_in (c_snap c) y CLabel -> x = y).
  { intros y z Y Z. rewrite (UL y Y), (UL z Z). reflexivity. }
  eapply circle_executed; try eassumption; try reflexivity; try apply (reachable_ready b c R0).
  exact (reachable_keyed b c R0).
Qed.
Print Assumptions C24_circular_implications_are_never_answered.

(** ** The hypotheses are met *)
Definition implied_b (s : snapshot) (k q : nat) : option nat :=
  match composition_of s q with
  | Some (x, p) => match composition_of s p with
                   | Some (i, y) => if Nat.eqb y k then match built_in_of s i with Some CImplication => Some x | _ => None end else None
                   | None => None end
  | None => None
  end.
Definition circle_b (s : snapshot) (l : list nat) : bool :=
  forallb (fun k => constant_b s k &&
    existsb (fun q => match implied_b s k q with Some _ => true | None => false end) (ids s) &&
    forallb (fun q => match implied_b s k q with Some x => existsb (Nat.eqb x) l | None => true end) (ids s)) l.
Lemma implied_ok s k q x : implied_b s k q = Some x -> implied_by s k x.
Proof.
  unfold implied_b. destruct (composition_of s q) as [[x' p]|] eqn:Q; [|discriminate].
  destruct (composition_of s p) as [[i y]|] eqn:P; [|discriminate]. destruct (Nat.eqb_spec y k) as [->|]; [|discriminate].
  unfold built_in_of. destruct (lookup s i) as [o|] eqn:L; [|discriminate]. destruct (c_spec o) as [cc| |] eqn:Sp; try discriminate.
  destruct cc; try discriminate. intros [= ->]. exists i, p, q. split; [exists o; auto|]. split; apply composition_of_composed; assumption.
Qed.
Lemma implied_found s k x : implied_by s k x -> exists q, In q (ids s) /\ implied_b s k q = Some x.
Proof.
  intros (i & p & q & (o & L & Sp) & P & Q). exists q. split.
  { destruct Q as (o' & fv & bv & red & L' & _). exact (known_id _ _ _ L'). }
  apply composition_of_composed in P, Q. unfold implied_b. rewrite Q, P, Nat.eqb_refl. unfold built_in_of. rewrite L, Sp. reflexivity.
Qed.
Lemma circle_ok s l : circle_b s l = true -> circle s (fun k => In k l).
Proof.
  unfold circle_b. rewrite forallb_forall. intros H k I. apply H in I. clear H. apply andb_prop in I. destruct I as [I C].
  apply andb_prop in I. destruct I as [A B]. split; [apply constant_ok, A|]. split.
  - apply existsb_exists in B. destruct B as (q & _ & B). destruct (implied_b s k q) as [x|] eqn:E; [|discriminate].
    exists x. exact (implied_ok _ _ _ _ E).
  - intros x Ix. destruct (implied_found _ _ _ Ix) as (q & Iq & E). rewrite forallb_forall in C. apply C in Iq. rewrite E in Iq.
    apply existsb_exists in Iq. destruct Iq as (y & Iy & Ey). apply Nat.eqb_eq in Ey. congruence.
Qed.

(** The circle [a => b => c => a], from which [e] follows, among other declarations. *)
Definition circle_commands : list text := map txt
  ["let ((p => (q -> r)) -> true)"; "let ((a => b) -> true)"; "let ((b => e) -> true)"; "let ((b => c) -> true)";
   "let ((c => a) -> true)"; "let (d -> p)"].
Definition circle_context : ctx :=
  Eval vm_compute in match run_safely cfg0 fuel0 circle_commands base_context with Some c => c | _ => default_ctx end.
Lemma circle_context_eq : run_safely cfg0 fuel0 circle_commands base_context = Some circle_context.
Proof. vm_compute. reflexivity. Qed.
Lemma circle_context_reachable : reachable_with true (links_safe true) circle_context.
Proof.
  exact (run_safely_reachable cfg0 fuel0 circle_commands fair0 base_context circle_context (reach_with_base _ _) circle_context_eq).
Qed.
Definition circle_words : list (text * nat * list nat) :=
  [(txt "a", 57, [56]); (txt "b", 60, [59]); (txt "c", 70, [69]); (txt "e", 65, [64])].
Definition circle_word_b (s : snapshot) (x : text * nat * list nat) : bool :=
  let '(w, k, l) := x in means_b s w k l && carries s k w && negb (is_variable_text w).
Example C24_circular_example :
  reachable_with true (links_safe true) circle_context /\ c_cache circle_context = empty_cache /\
  circle (c_snap circle_context) (fun k => In k [57; 60; 70; 65]) /\
  Forall (fun '(w, k, _) => In k [57; 60; 70; 65] /\ means (c_snap circle_context) w k /\
                            goes_by (c_snap circle_context) k w /\ is_variable_text w = false) circle_words.
Proof.
  split; [exact circle_context_reachable|]. split; [reflexivity|]. split; [apply circle_ok; vm_compute; reflexivity|].
  assert (H : forallb (circle_word_b (c_snap circle_context)) circle_words = true) by (vm_compute; reflexivity).
  rewrite forallb_forall in H. apply Forall_forall. intros [[w k] l] I. specialize (H _ I). cbn [circle_word_b] in H.
  apply andb_prop in H. destruct H as [H H3]. apply andb_prop in H. destruct H as [H1 H2]. split.
  - unfold circle_words in I. repeat (destruct I as [I|I]; [injection I as <- <- <-; cbn; tauto|]). destruct I.
  - split; [exact (means_ok _ _ _ _ H1)|]. split; [apply GoesByLabel, carries_label_of, H2|].
    destruct (is_variable_text w); [discriminate|reflexivity].
Qed.
(** Other words of the same context are answered. *)
Example C24_circular_other_words :
  match execute cfg0 60 (txt "d") circle_context with Ok (answer, _) => text_eqb answer (txt "p") | _ => false end = true.
Proof. vm_compute. reflexivity. Qed.

(** C24: two accepted declarations after which a word is never answered, whatever the bound. *)
Theorem C24_circular_implications_refuted :
  exists c rs, run_session cfg0 fuel0 (map txt ["let ((a => b) -> true)"; "let ((b => a) -> true)"]) base_context = Ok (rs, c) /\
    rs = [[]; []] /\ forall n answer c', execute cfg0 n (txt "a") c <> Ok (answer, c').
Proof.
  destruct (run_safely cfg0 fuel0 (map txt ["let ((a => b) -> true)"; "let ((b => a) -> true)"]) base_context) as [x|] eqn:E;
    [|vm_compute in E; discriminate].
  pose proof (run_safely_reachable cfg0 fuel0 _ fair0 base_context x (reach_with_base _ _) E) as R.
  exists x, [[]; []]. vm_compute in E. injection E as <-. split; [vm_compute; reflexivity|]. split; [reflexivity|]. intros n answer c'.
  refine (C24_circular_implications_are_never_answered true cfg0 n _ (fun k => In k [44; 47]) 44 _ answer c' fair0 eq_refl R eq_refl _ _ _ _ _).
  - apply circle_ok. vm_compute. reflexivity.
  - now left.
  - apply (means_ok _ _ _ [43]). vm_compute. reflexivity.
  - apply GoesByLabel, carries_label_of. vm_compute. reflexivity.
  - reflexivity.
Qed.
Print Assumptions C24_circular_implications_refuted.
