(** C58: what a symbol is answered with. *)
From Verif Require Import Lexer LexerSpec Start Snapshot Search Context StoreSpec StoreInv MapFacts AstSpec AstFacts StoreFacts RangeFacts History
  StoreLaws OneName NameSpec Names Displays SearchCaches Existence Wide Matches Implications Asking Links Sample Witness
  NameWitness Frames PropertiesAsking Shapes Unruled Answers Replies.
From Coq Require Import String List Bool PeanoNat Relations.
Import ListNotations.
Local Open Scope string_scope.

(** Asked for symbols one after the other, right after a change to the store, the context answers each with
    the name of what the chain of declared reductions from the symbol ends in, and the store stays as it
    is.  The symbols on the way must be [plain_symbol]s (Answers.v): not made of others, and such that no
    implication can say anything about them.  For every history in which no composition is replaced or
    removed, every hash order, every amount of fuel and both build modes. *)
Theorem C58_chains_are_followed b cfg fuel c symbols names answers c' :
  fair cfg -> dbg cfg = b -> reachable_with b (links_safe b) c -> c_cache c = empty_cache ->
  operators_named (c_snap c) ->
  Forall2 (fun w v => exists k z, means (c_snap c) w k /\ ends (c_snap c) k z v) symbols names ->
  run_session cfg fuel symbols c = Ok (answers, c') -> answers = names /\ c_snap c' = c_snap c.
Proof.
  intros F D R K ON Q E. pose proof (reachable_without _ _ _ R) as R0.
  pose proof (sane_numbers _ (ready_sane _ (reachable_ready b c R0))) as N.
  destruct (links_agree_reachable b c R) as (LC & LR & UC).
  destruct (reachable_built_in b c R0 CLabel) as (lab & BL & _ & UL & _ & _ & CI).
  assert (UL' : forall x y, built_in (c_snap c) x CLabel -> built_in (c_snap c) y CLabel -> x = y).
  { intros y z Y Z. rewrite (UL y Y), (UL z Z). reflexivity. }
  assert (BI : forall cc y, concrete_concept_id cfg (c_snap c) delta_default cc = Ok (Some y) -> is_built_in (c_snap c) y cc).
  { intros cc y X. destruct (reachable_built_in b c R0 cc) as (n & B & _ & _ & _ & _ & CI').
    rewrite (concrete_id_plain _ _ _ F) in X. rewrite (concrete_id_plain _ _ _ fair0) in CI'.
    rewrite X in CI'. injection CI' as ->. exists n. auto. }
  rewrite (concrete_id_plain cfg0 _ _ fair0) in CI. rewrite <- (concrete_id_plain cfg _ _ F) in CI.
  assert (H : asked cfg (c_snap c) fuel (fun _ _ => True) c).
  { split; [reflexivity|]. split; [apply (reachable_ready b c R0)|]. split; [apply (reachable_ready b c R0)|].
    rewrite K. apply good_empty. }
  remember (c_snap c) as s eqn:Sn. clear K Sn R. revert answers c H R0 E.
  induction Q as [|w v symbols names (k & z & Me & En) _ IH]; intros answers c H R0 E.
  - injection E as <- <-. split; [reflexivity|]. apply H.
  - cbn [run_session] in E. apply obind_ok in E. destruct E as ([a c1] & E1 & E). apply obind_ok in E.
    destruct E as ([rs c2] & E2 & [= <- <-]).
    pose proof (reach_execute b cfg fuel _ _ _ _ F D R0 E1) as R1.
    destruct (symbol_executed cfg s fuel F N LC LR UL' lab CI BL BI ON _ _ _ _ _ _ _ _ (reachable_ready b c R0) En Me H E1)
      as (-> & S1 & D1 & G1).
    destruct (IH rs c1) as [-> S2]; [|exact R1|exact E2|].
    + split; [exact S1|]. split; [exact D1|]. split; [apply (reachable_ready b c1 R1)|exact G1].
    + auto.
Qed.
Print Assumptions C58_chains_are_followed.

(** ** The hypotheses are met *)
(** Deciding them. *)
Definition ids (s : snapshot) : list nat := seq 0 (size s).
Definition listed_b (s : snapshot) (b : nat) : list nat :=
  match lookup s b with Some c => reduces_from c | None => [] end.
Definition unnamed_variables_b (s : snapshot) : bool :=
  forallb (fun n => match text_of s n with Some t => negb (is_variable_text t) | None => true end) (ids s).
Definition indefinite_b (s : snapshot) (n : nat) : bool :=
  match lookup s n with
  | Some c => match c_spec c with
              | Abstract (Leaf FreeVariable) _ | Abstract (Leaf BoundVariable) _ | Abstract (Comp _ _ (_ :: _) _) _ => true
              | _ => false
              end
  | None => false
  end.
Definition free_b (s : snapshot) (n : nat) : bool :=
  match lookup s n with
  | Some c => match c_spec c with Abstract (Leaf FreeVariable) _ => true | _ => false end
  | None => false
  end.
Fixpoint may_say_b (s : snapshot) (hs : list nat) (n : nat) : bool :=
  match hs with
  | [] => true
  | h :: hs =>
    free_b s n ||
    match composition_of s n with
    | Some (a, b) => (Nat.eqb a h || indefinite_b s a) && existsb (may_say_b s hs) (b :: listed_b s b)
    | None => false
    end
  end.
Definition of_type (s : snapshot) (cc : cct) : list nat :=
  filter (fun n => match built_in_of s n with Some x => cct_eqb x cc | None => false end) (ids s).
Definition unruled_b (s : snapshot) (k : nat) : bool :=
  forallb (fun t => forallb (fun z =>
    match composition_of s z with
    | Some (_, w) =>
      forallb (fun w' => forallb (fun i => forallb (fun r => negb (may_say_b s [i; k; r] w')) (of_type s CReduction))
        (of_type s CImplication)) (w :: listed_b s w)
    | None => true
    end) (t :: listed_b s t)) (of_type s CTrue).
Lemma known_id s n c : lookup s n = Some c -> In n (ids s).
Proof. intros L. apply in_seq. split; [apply Nat.le_0_l|]. cbn. apply known_lt. congruence. Qed.
Lemma listed_ok s b b' : lists_reduction_from s b b' -> In b' (listed_b s b).
Proof. intros (c & L & I). unfold listed_b. rewrite L. exact I. Qed.
Lemma reducing_ok s b b' : same_or_reducing s b b' -> In b' (b :: listed_b s b).
Proof. intros [->|H]; [now left|right; apply listed_ok, H]. Qed.
Lemma unnamed_variables_ok s : unnamed_variables_b s = true -> forall n w, goes_by s n w -> is_variable_text w = false.
Proof.
  intros H n w G. induction G as [n t (lab & comp & str & _ & _ & _ & (c & L & S))|]; [|assumption].
  unfold unnamed_variables_b in H. rewrite forallb_forall in H. specialize (H str (known_id _ _ _ L)).
  unfold text_of in H. rewrite L, S in H. destruct (is_variable_text t); [discriminate|reflexivity].
Qed.
Lemma indefinite_ok s n : unnamed_variables_b s = true -> indefinite s n -> indefinite_b s n = true.
Proof.
  intros U [(c & red & L & S)|[(c & red & L & S)|[(c & l & r & v & fv & bv & red & L & S)|(w & G & V)]]];
    try (unfold indefinite_b; rewrite L, S; reflexivity).
  rewrite (unnamed_variables_ok _ U _ _ G) in V. discriminate.
Qed.
Lemma may_say_ok s hs n : unnamed_variables_b s = true -> may_say s hs n -> may_say_b s hs n = true.
Proof.
  intros U. induction 1 as [n|hs n (c & red & L & S)|h hs n a b b' C A B M IH]; [reflexivity| |].
  - destruct hs; [reflexivity|]. cbn [may_say_b]. unfold free_b. rewrite L, S. reflexivity.
  - cbn [may_say_b]. apply composition_of_composed in C. rewrite C.
    assert ((Nat.eqb a h || indefinite_b s a)%bool = true) as ->.
    { destruct A as [->|A]; [rewrite Nat.eqb_refl; reflexivity|]. rewrite (indefinite_ok _ _ U A). apply orb_true_r. }
    replace (existsb (may_say_b s hs) (b :: listed_b s b)) with true; [apply orb_true_r|]. symmetry.
    apply existsb_exists. exists b'. split; [apply reducing_ok, B|exact IH].
Qed.
Lemma of_type_ok s n cc : built_in s n cc -> In n (of_type s cc).
Proof.
  intros (c & L & S). apply filter_In. split; [exact (known_id _ _ _ L)|]. unfold built_in_of. rewrite L, S.
  destruct cc; reflexivity.
Qed.
Lemma unruled_ok s k : unnamed_variables_b s = true -> unruled_b s k = true -> unruled s k.
Proof.
  intros U H t i r z cond w w' Bt Bi Br Z C W M. unfold unruled_b in H.
  rewrite forallb_forall in H. specialize (H t (of_type_ok _ _ _ Bt)).
  rewrite forallb_forall in H. specialize (H z (reducing_ok _ _ _ Z)).
  apply composition_of_composed in C. rewrite C in H.
  rewrite forallb_forall in H. specialize (H w' (reducing_ok _ _ _ W)).
  rewrite forallb_forall in H. specialize (H i (of_type_ok _ _ _ Bi)).
  rewrite forallb_forall in H. specialize (H r (of_type_ok _ _ _ Br)).
  rewrite (may_say_ok _ _ _ U M) in H. discriminate.
Qed.

Definition constant_b (s : snapshot) (n : nat) : bool :=
  match lookup s n with
  | Some c => match c_spec c with Abstract (Leaf Constant) _ => true | _ => false end
  | None => false
  end.
Definition built_b (s : snapshot) (n : nat) : bool := match built_in_of s n with Some _ => true | None => false end.
Definition settled_b (s : snapshot) (n : nat) (w : text) : bool :=
  (built_b s n || constant_b s n) && carries s n w && negb (is_variable_text w) && unruled_b s n.
Definition plain_b (s : snapshot) (n : nat) (w : text) : bool :=
  settled_b s n w && constant_b s n &&
  forallb (fun p => match composition_of s p with
                    | Some (l, r) => negb (Nat.eqb r n) || match built_in_of s l with Some CImplication => false | _ => true end
                    | None => true end) (ids s).
(** The chain from [n] is the given one. *)
Fixpoint ends_b (s : snapshot) (chain : list (nat * text)) : bool :=
  match chain with
  | [] => false
  | (k, w) :: rest =>
    match rest with
    | [] => if built_b s k then settled_b s k w
            else plain_b s k w && match reduction_of s k with Some _ => false | None => true end
    | (q, _) :: _ => plain_b s k w && opt_is (reduction_of s k) q && ends_b s rest
    end
  end.
Lemma built_ok s n : built_b s n = true -> exists cc, built_in s n cc.
Proof.
  unfold built_b, built_in_of. destruct (lookup s n) as [c|] eqn:L; [|discriminate].
  destruct (c_spec c) as [cc| |] eqn:S; try discriminate. intros _. exists cc, c. auto.
Qed.
Lemma constant_ok s n : constant_b s n = true -> leaf_variable s n Constant.
Proof.
  unfold constant_b. destruct (lookup s n) as [c|] eqn:L; [|discriminate].
  destruct (c_spec c) as [|comp red|] eqn:S; try discriminate. destruct comp as [|ch]; [discriminate|].
  destruct ch; try discriminate. intros _. exists c, red. auto.
Qed.
Lemma settled_ok s n w : unnamed_variables_b s = true -> settled_b s n w = true -> settled_symbol s n w.
Proof.
  intros U H. unfold settled_b in H. repeat (apply andb_prop in H; destruct H as [H ?]). split; [|split; [|split]].
  - apply orb_prop in H. destruct H as [H|H]; [left; apply built_ok, H|right; apply constant_ok, H].
  - apply GoesByLabel, carries_label_of. assumption.
  - destruct (is_variable_text w); [discriminate|reflexivity].
  - apply unruled_ok; assumption.
Qed.
Lemma plain_ok s n w : unnamed_variables_b s = true -> plain_b s n w = true -> plain_symbol s n w.
Proof.
  intros U H. unfold plain_b in H. apply andb_prop in H. destruct H as [H H3]. apply andb_prop in H. destruct H as [H1 H2].
  split; [apply settled_ok; assumption|]. split; [apply constant_ok, H2|]. intros i p (ci & Li & Si) C.
  rewrite forallb_forall in H3. assert (I : In p (ids s)).
  { destruct C as (c & fv & bv & red & L & _). exact (known_id _ _ _ L). }
  apply H3 in I. apply composition_of_composed in C. rewrite C, Nat.eqb_refl in I. unfold built_in_of in I.
  rewrite Li, Si in I. discriminate.
Qed.
Lemma ends_ok s chain : unnamed_variables_b s = true -> ends_b s chain = true ->
  ends s (fst (hd (0, []) chain)) (fst (last chain (0, []))) (snd (last chain (0, []))).
Proof.
  intros U. induction chain as [|[k w] rest IH]; [discriminate|]. cbn [ends_b]. destruct rest as [|[q v] rest]; intros H.
  - cbn. destruct (built_b s k) eqn:B.
    + destruct (built_ok _ _ B) as (cc & B'). eapply EndsBuiltIn; [exact B'|apply settled_ok; assumption].
    + apply andb_prop in H. destruct H as [H1 H2]. apply EndsSymbol; [apply plain_ok; assumption|].
      intros q R. apply reduction_of_reduces in R. rewrite R in H2. discriminate.
  - apply andb_prop in H. destruct H as [H H3]. apply andb_prop in H. destruct H as [H1 H2].
    change (last ((k, w) :: (q, v) :: rest) (0, [])) with (last ((q, v) :: rest) (0, [])). cbn [hd fst].
    eapply EndsLater; [apply plain_ok; eassumption| |exact (IH H3)].
    apply reduction_of_reduces, opt_is_eq, H2.
Qed.
(** Everything found under a name lies in the given list of concepts. *)
Definition closed_b (s : snapshot) (l : list nat) (n : nat) : bool := forallb (fun m => existsb (Nat.eqb m) l) (listed_b s n).
Definition means_b (s : snapshot) (w : text) (k : nat) (l : list nat) : bool :=
  negb (text_eqb w []) && forallb (fun c => match class_of c with ClSymbol => true | _ => false end) w &&
  negb (is_variable_symbol w) &&
  match concept_from_label cfg0 s delta_default fuel0 w with Ok (Some (Committed x)) => Nat.eqb x k | _ => false end &&
  match aget text_eqb w (string_map s) with
  | Some str => closed_b s l str && forallb (closed_b s l) l &&
                forallb (fun comp => match composition_of s comp with
                                     | Some (a, x) => match built_in_of s a with Some CLabel => Nat.eqb x k | _ => true end
                                     | None => true end) l
  | None => false
  end.
Lemma closed_ok s l : forallb (closed_b s l) l = true -> forall m n, closed_b s l m = true ->
  clos_trans nat (lists_reduction_from s) m n -> In n l.
Proof.
  intros H m n Hm C. apply clos_trans_t1n in C. induction C as [m n R|m p n R C IH].
  - unfold closed_b in Hm. rewrite forallb_forall in Hm. apply listed_ok, Hm, existsb_exists in R.
    destruct R as (y & Y & E). apply Nat.eqb_eq in E. congruence.
  - apply IH. rewrite forallb_forall in H. apply H. unfold closed_b in Hm. rewrite forallb_forall in Hm.
    apply listed_ok, Hm, existsb_exists in R. destruct R as (y & Y & E). apply Nat.eqb_eq in E. congruence.
Qed.
Lemma means_ok s w k l : means_b s w k l = true -> means s w k.
Proof.
  intros H. unfold means_b in H. repeat (apply andb_prop in H; destruct H as [H ?]).
  destruct (concept_from_label _ _ _ _ _) as [[[x|]|]| | |] eqn:Fl; try discriminate.
  apply (from_label_found cfg0 s fair0) in Fl. destruct Fl as (y & [= <-] & Fu).
  destruct (Nat.eqb_spec x k) as [->|]; [|discriminate].
  split; [split|split; [|split]].
  - intros ->. discriminate.
  - intros c I. rewrite forallb_forall in H3. apply H3 in I. destruct (class_of c); try discriminate; reflexivity.
  - rewrite <- underscored_spec. destruct (is_variable_symbol w); discriminate.
  - exact Fu.
  - intros x (str & comp & lab & A & C & Cp & (cl & Ll & Sl)). rewrite A in H0.
    apply andb_prop in H0. destruct H0 as [H0 H5]. apply andb_prop in H0. destruct H0 as [H0 H4].
    pose proof (closed_ok _ _ H4 _ _ H0 C) as I. rewrite forallb_forall in H5. apply H5 in I.
    apply composition_of_composed in Cp. rewrite Cp in I. unfold built_in_of in I. rewrite Ll, Sl in I.
    apply Nat.eqb_eq, I.
Qed.

(** A context with a rule (about [q], if [p] is true), and the chains [a -> b -> c] and [d -> false]. *)
Definition chain_commands : list text :=
  map txt ["let ((p => (q -> r)) -> true)"; "let (a -> b)"; "let (b -> c)"; "let (d -> false)"].
Definition chain_context : ctx :=
  Eval vm_compute in match run_safely cfg0 fuel0 chain_commands base_context with Some c => c | _ => default_ctx end.
Lemma chain_context_eq : run_safely cfg0 fuel0 chain_commands base_context = Some chain_context.
Proof. vm_compute. reflexivity. Qed.
Lemma chain_context_reachable : reachable_with true (links_safe true) chain_context.
Proof.
  exact (run_safely_reachable cfg0 fuel0 chain_commands fair0 base_context chain_context (reach_with_base _ _) chain_context_eq).
Qed.
Definition chain_questions : list (text * list nat * list (nat * text)) :=
  [(txt "a", [56], [(57, txt "a"); (60, txt "b"); (63, txt "c")]); (txt "d", [65], [(66, txt "d"); (17, txt "false")]);
   (txt "b", [59], [(60, txt "b"); (63, txt "c")]); (txt "c", [62], [(63, txt "c")]); (txt "false", [16], [(17, txt "false")]);
   (txt "p", [43], [(44, txt "p")])].
Definition question_b (s : snapshot) (x : text * list nat * list (nat * text)) : bool :=
  let '(w, l, chain) := x in means_b s w (fst (hd (0, []) chain)) l && ends_b s chain.
Lemma questions_ok s qs : unnamed_variables_b s = true -> forallb (question_b s) qs = true ->
  Forall2 (fun w v => exists k z, means s w k /\ ends s k z v) (map (fun x => fst (fst x)) qs)
    (map (fun x => snd (last (snd x) (0, []))) qs).
Proof.
  intros U. induction qs as [|[[w l] chain] qs IH]; intros H; [constructor|]. cbn [forallb] in H.
  apply andb_prop in H. destruct H as [H1 H2]. constructor; [|exact (IH H2)]. cbn [question_b] in H1.
  apply andb_prop in H1. destruct H1 as [H1 H3]. exists (fst (hd (0, []) chain)), (fst (last chain (0, []))).
  split; [exact (means_ok _ _ _ _ H1)|exact (ends_ok _ _ U H3)].
Qed.
Lemma chain_context_checked :
  (unnamed_variables_b (c_snap chain_context) && forallb (question_b (c_snap chain_context)) chain_questions)%bool = true.
Proof. vm_compute. reflexivity. Qed.
Definition chain_symbols : list text := map txt ["a"; "d"; "b"; "c"; "false"; "p"].
Definition chain_names : list text := map txt ["c"; "false"; "c"; "c"; "false"; "p"].
Definition texts_b (r : outcome (list text * ctx)) (names : list text) : bool :=
  match r with Ok (a, _) => if list_eq_dec (list_eq_dec N.eq_dec) a names then true else false | _ => false end.
Lemma texts_ok r names : texts_b r names = true -> exists c', r = Ok (names, c').
Proof.
  unfold texts_b. destruct r as [[a c']| | |]; try discriminate. destruct (list_eq_dec (list_eq_dec N.eq_dec) a names) as [->|]; [|discriminate].
  intros _. exists c'. reflexivity.
Qed.
Lemma chain_context_answers : texts_b (run_session cfg0 fuel0 chain_symbols chain_context) chain_names = true.
Proof. vm_compute. reflexivity. Qed.
Example C58_case : exists c', fair cfg0 /\ reachable_with true (links_safe true) chain_context /\
  c_cache chain_context = empty_cache /\ operators_named (c_snap chain_context) /\
  Forall2 (fun w v => exists k z, means (c_snap chain_context) w k /\ ends (c_snap chain_context) k z v)
    chain_symbols chain_names /\
  run_session cfg0 fuel0 chain_symbols chain_context = Ok (chain_names, c').
Proof.
  destruct (texts_ok _ _ chain_context_answers) as (c' & E). exists c'.
  destruct (andb_prop _ _ chain_context_checked) as [U Q].
  split; [exact fair0|]. split; [exact chain_context_reachable|]. split; [reflexivity|].
  split; [intros n w _ G; exact (unnamed_variables_ok _ U n w G)|]. split; [exact (questions_ok _ _ U Q)|exact E].
Qed.
