(** C77, C78 and C79: what declarations lead to, and what refused declarations leave behind; more commands that crash (C23). *)
From Verif Require Import Start Lexer LexerSpec Snapshot Search Context StoreSpec NameSpec StoreInv StoreFacts MapFacts AstFacts History Steps Keep Sim Meaning Settled Links CacheLife Displays RangeFacts Sample Witness NameWitness
  Spelled Asking Unruled Answers Replies Checks Phrases Groups Flat Outlines Notebook Notes PropertiesAnswers PropertiesWords PropertiesUttered PropertiesNotebook PropertiesChecks PropertiesPhrases PropertiesPast.
From Coq Require Import String List Relations PeanoNat Bool Lia.
Import ListNotations.
Local Open Scope string_scope.

(** ** C23: further commands that crash in the context of [Context::new]
    A pair of a concept with itself as a statement, and a variable that is defined as a pair
    (zia/src/concepts/trait.rs:31-72, modelled by [compose_delta] in Snapshot.v). *)
Definition crashing_too : list (string * string) :=
  [("let a a", "commit_new_concept_with_dependent_concepts");
   ("let a -> (b b)", "commit_new_concept_with_dependent_concepts");
   ("let _x_ := a b", "Not sure what you are trying to do here ...")].
Lemma crashing_too_checked :
  forallb (fun '(cmd, site) => crashes_at site (execute cfg0 fuel0 (txt cmd) context0)) crashing_too = true.
Proof. vm_compute. reflexivity. Qed.
Theorem C23_more_commands_crash_refuted :
  exists c, new_context cfg0 fuel0 = Ok c /\ reachable true c /\ forall cmd site,
    In (cmd, site)
      [("let a a", "commit_new_concept_with_dependent_concepts");
       ("let a -> (b b)", "commit_new_concept_with_dependent_concepts");
       ("let _x_ := a b", "Not sure what you are trying to do here ...")] ->
    execute cfg0 fuel0 (txt cmd) c = Panic site.
Proof.
  exists context0. split; [exact context0_eq|]. split; [exact context0_reachable|]. intros cmd site J.
  pose proof crashing_too_checked as K. rewrite forallb_forall in K. exact (crashes_at_eq _ _ (K _ J)).
Qed.
Print Assumptions C23_more_commands_crash_refuted.

(** ** C77: reducing a concept, and looking at the parts of what it reduces to, never leads back to the concept *)
(** What is met next when a concept is evaluated: what it reduces to, or one of its parts. *)
Definition met_next (s : snapshot) (n m : nat) : Prop := reduces s n m \/ (exists o, composed s n m o) \/ (exists o, composed s n o m).
Definition entangled_commands := ["let a -> (b c)"; "let b -> a"].
Definition entangled_check (rs : list text) (c : ctx) : bool :=
  all_empty rs && opt_is (reduction_of (c_snap c) 85) 82 && opt_is (reduction_of (c_snap c) 82) 89 &&
  match composition_of (c_snap c) 89 with Some (l, r) => Nat.eqb l 85 && Nat.eqb r 88 | None => false end &&
  match execute cfg0 60 (txt "b") c with OutOfFuel => true | _ => false end.
Lemma entangled_checked : on_session (run_session cfg0 fuel0 (map txt entangled_commands) context0) entangled_check = true.
Proof. vm_compute. reflexivity. Qed.
(** Each of `let a -> (b c)` and `let b -> a` is accepted, although `let a -> (a c)` is not
    (zia/src/context.rs:1162-1163 looks only at the normal form of the right hand side before the declaration).  Then `b`
    reduces to `a`, which reduces to an expression that contains `b`.  Evaluating `b` uses up the 60 steps that are enough for
    the other questions here. *)
Theorem C77_reductions_lead_back_refuted : exists c n,
  run_session cfg0 fuel0 (map txt ["let a -> (b c)"; "let b -> a"]) context0 = Ok ([[]; []], c) /\
  reachable true c /\ clos_trans nat (met_next (c_snap c)) n n /\ execute cfg0 60 (txt "b") c = OutOfFuel.
Proof.
  destruct (session_witness _ _ entangled_checked) as (rs & c & E0 & R & E). exists c, 85.
  unfold entangled_check in E. apply andb_prop in E. destruct E as [E E5]. apply andb_prop in E. destruct E as [E E4].
  apply andb_prop in E. destruct E as [E E3]. apply andb_prop in E. destruct E as [E1 E2].
  apply opt_is_eq in E2. apply opt_is_eq in E3. apply reduction_of_reduces in E2. apply reduction_of_reduces in E3.
  destruct (composition_of (c_snap c) 89) as [[l r]|] eqn:E6; [|discriminate E4]. apply andb_prop in E4. destruct E4 as [El Er].
  apply Nat.eqb_eq in El. apply Nat.eqb_eq in Er. subst l r. apply composition_of_composed in E6.
  split; [|split; [exact R|split]].
  - pose proof (run_session_length _ _ _ _ _ _ E0) as L. rewrite (all_empty_repeat _ E1), L in E0. exact E0.
  - eapply t_trans; [apply t_step; left; exact E2|]. eapply t_trans; [apply t_step; left; exact E3|].
    apply t_step. right. left. exists 88. exact E6.
  - destruct (execute cfg0 60 (txt "b") c); try discriminate E5. reflexivity.
Qed.
Print Assumptions C77_reductions_lead_back_refuted.
(** The direct loop is noticed, and 60 steps are enough for other questions. *)
Example C77_direct_loops_are_refused :
  on_session (run_session cfg0 60 (map txt ["let a -> (a c)"; "let a -> (b c)"; "a"; "let b -> d"; "a"]) context0)
    (fun rs _ => if list_eq_dec (list_eq_dec BinNat.N.eq_dec) rs (map txt ["Cannot reduce a concept to an expression containing itself."; ""; "b c"; ""; "d c"]) then true else false) = true.
Proof. vm_compute. reflexivity. Qed.

(** ** C78: a declaration that is refused has no effect on what is answered later *)
Definition refused_check (rs : list text) (c : ctx) : bool :=
  match execute cfg0 fuel0 (txt "let (a c e) -> g") c with
  | Ok (r, c1) => all_empty rs && text_eqb r (txt "a c e already reduces to a f") && crashes_at "No concept with id" (execute cfg0 fuel0 (txt "a c e") c1)
      && answers (txt "a f") (execute cfg0 fuel0 (txt "a c e") c)
  | _ => false
  end.
Lemma refused_checked : on_session (run_session cfg0 fuel0 (map txt ["let (c e) -> f"]) context0) refused_check = true.
Proof. vm_compute. reflexivity. Qed.
(** After `let (c e) -> f`, the question `a c e` is answered with `a f`; if `let (a c e) -> g` is refused first then the
    same question crashes. *)
Theorem C78_refused_declarations_have_effects_refuted : exists c c1 c2,
  run_session cfg0 fuel0 (map txt ["let (c e) -> f"]) context0 = Ok ([[]], c) /\ reachable true c /\
  execute cfg0 fuel0 (txt "a c e") c = Ok (txt "a f", c2) /\
  execute cfg0 fuel0 (txt "let (a c e) -> g") c = Ok (txt "a c e already reduces to a f", c1) /\
  execute cfg0 fuel0 (txt "a c e") c1 = Panic "No concept with id".
Proof.
  destruct (session_witness _ _ refused_checked) as (rs & c & E0 & R & E). unfold refused_check in E.
  destruct (execute cfg0 fuel0 (txt "let (a c e) -> g") c) as [[r c1]| | |] eqn:E1; try discriminate E.
  apply andb_prop in E. destruct E as [E E4]. apply andb_prop in E. destruct E as [E E3]. apply andb_prop in E. destruct E as [Ee E2].
  destruct (answers_eq _ _ E4) as (c2 & A). destruct (text_eqb_spec r (txt "a c e already reduces to a f")) as [->|]; [|discriminate E2].
  exists c, c1, c2. split; [|split; [exact R|split; [exact A|split; [exact E1|exact (crashes_at_eq _ _ E3)]]]].
  pose proof (run_session_length _ _ _ _ _ _ E0) as L. rewrite (all_empty_repeat _ Ee), L in E0. exact E0.
Qed.
Print Assumptions C78_refused_declarations_have_effects_refuted.

(** Among words there are no such effects: in a session of notes about words, a declaration that is refused, or forgetting
    what was not declared, can be left out without any other answer being different.  Missing: expressions in declarations,
    for which it is false. *)
Definition turned_down (n : note) : Prop := match n with Object _ _ | Idle _ => True | _ => False end.
Lemma shortened_same ns answers : List.length ns = List.length answers -> shortened ns answers ns answers.
Proof.
  revert answers. induction ns as [|n ns IH]; intros [|a answers] L; try discriminate L; constructor. apply IH. injection L as L. exact L.
Qed.
Lemma shortened_one past before n a rest answers : List.length past = List.length before -> List.length rest = List.length answers -> turned_down n ->
  shortened (past ++ n :: rest) (before ++ a :: answers) (past ++ rest) (before ++ answers).
Proof.
  intros L1 L2 T. revert before L1. induction past as [|m past IH]; intros [|b before] L1; try discriminate L1; cbn [app].
  - constructor; [destruct n; try destruct T; exact I|apply shortened_same, L2].
  - constructor. apply IH. injection L1 as L1. exact L1.
Qed.
Theorem C78_refused_notes_have_no_effect_partial cfg fuel cfg' fuel' past n rest before a answers others c d :
  fair cfg -> dbg cfg = true -> fair cfg' -> dbg cfg' = true -> turned_down n ->
  written (c_snap context0) (map fst (names_of built_in_words)) [] (past ++ n :: rest) -> tidy (past ++ n :: rest) = true ->
  run_session cfg fuel (map line (past ++ n :: rest)) context0 = Ok (before ++ a :: answers, c)%list ->
  List.length past = List.length before -> List.length rest = List.length answers -> Forall2 silent (past ++ n :: rest) (before ++ a :: answers)%list ->
  run_session cfg' fuel' (map line (past ++ rest)) context0 = Ok (others, d) -> Forall2 silent (past ++ rest) others ->
  others = (before ++ answers)%list.
Proof.
  intros F D F' D' N W T E L1 L2 SI E' SI'.
  exact (C72_asking_leaves_no_trace cfg fuel cfg' fuel' _ _ _ _ _ c d F D F' D' W T E SI (shortened_one past before n a rest answers L1 L2 N) E' SI').
Qed.
Print Assumptions C78_refused_notes_have_no_effect_partial.

(** ** C79: what was declared is confirmed when asked about *)
Definition confirmed_check (rs : list text) (c : ctx) : bool := all_empty rs && answers (txt "a -> b d") (execute cfg0 fuel0 (txt "c -> (b d)") c) && answers (txt "a") (execute cfg0 fuel0 (txt "c") c).
Lemma confirmed_checked : on_session (run_session cfg0 fuel0 (map txt ["let a := b d"; "let c -> (b d)"]) context0) confirmed_check = true.
Proof. vm_compute. reflexivity. Qed.
(** With a name for the expression `b d` the declaration `let c -> (b d)` is accepted, `c` is answered with that name, but
    whether `c` reduces to `b d` is answered with another question and not with `true`. *)
Theorem C79_declarations_are_not_confirmed_refuted : exists c c1 c2,
  run_session cfg0 fuel0 (map txt ["let a := b d"; "let c -> (b d)"]) context0 = Ok ([[]; []], c) /\ reachable true c /\
  execute cfg0 fuel0 (txt "c") c = Ok (txt "a", c1) /\ execute cfg0 fuel0 (txt "c -> (b d)") c = Ok (txt "a -> b d", c2).
Proof.
  destruct (session_witness _ _ confirmed_checked) as (rs & c & E0 & R & E). unfold confirmed_check in E.
  apply andb_prop in E. destruct E as [E E3]. apply andb_prop in E. destruct E as [E1 E2].
  destruct (answers_eq _ _ E2) as (c2 & A2). destruct (answers_eq _ _ E3) as (c1 & A1).
  exists c, c1, c2. split; [|split; [exact R|split; [exact A1|exact A2]]].
  pose proof (run_session_length _ _ _ _ _ _ E0) as L. rewrite (all_empty_repeat _ E1), L in E0. exact E0.
Qed.
Print Assumptions C79_declarations_are_not_confirmed_refuted.

(** Among words it is confirmed as long as it is not withdrawn: whatever is declared, asked, evaluated and refused before
    and after, `w (-> v)` is answered `true` if `let (w (-> v))` was answered with nothing and `w` was not forgotten since.
    Missing: expressions, for which it is false. *)
Definition leaves (w : text) (n : note) : Prop := match n with Forget u | Drop _ u => u <> w | _ => True end.
Definition accepting (w v : text) (n : note) : Prop := n = Tell w v \/ n = Accept w v.
Lemma declared_after B ns ms : declared B (ns ++ ms) = declared (declared B ns) ms.
Proof. revert B. induction ns as [|n ns IH]; intros B; [reflexivity|]. destruct n; cbn [app declared]; apply IH. Qed.
Lemma still_declared w v ns : Forall (leaves w) ns -> forall B, In (w, v) B -> In (w, v) (declared B ns).
Proof.
  induction 1 as [|n ns L _ IH]; intros B J; [exact J|]. destruct n as [w0 v0|w0|w0|w0 v0|ws|p|w0 v0|ws|pl w0 v0|os|w0 v0|w0|w0 v0|sh w0|w0]; cbn [declared]; cbn in L; apply IH; try exact J; try (right; exact J).
  - unfold without. rewrite filter_In. split; [exact J|]. cbn [fst]. destruct (list_eq_dec BinNat.N.eq_dec w w0) as [->|_]; [destruct (L eq_refl)|reflexivity].
  - unfold without. rewrite filter_In. split; [exact J|]. cbn [fst]. destruct (list_eq_dec BinNat.N.eq_dec w w0) as [->|_]; [destruct (L eq_refl)|reflexivity].
Qed.
Theorem C79_words_are_confirmed_partial cfg fuel before n between w v answers a c' :
  fair cfg -> dbg cfg = true -> accepting w v n -> Forall (leaves w) between ->
  written (c_snap context0) (map fst (names_of built_in_words)) [] (before ++ n :: between ++ [Check w v]) ->
  run_session cfg fuel (map line (before ++ n :: between ++ [Check w v])) context0 = Ok (answers ++ [a], c')%list ->
  Forall2 silent (before ++ n :: between) answers ->
  a = txt "true".
Proof.
  intros F D A L W E SI.
  assert (Q : (before ++ n :: between ++ [Check w v] = (before ++ n :: between) ++ [Check w v])%list) by (rewrite <- app_assoc; reflexivity).
  rewrite Q in W, E. refine (proj1 (C65_declared_reductions_are_confirmed_partial cfg fuel _ w v answers a c' F D W E SI) _).
  apply BecomesNext. rewrite declared_after. destruct A as [->| ->]; cbn [declared]; apply still_declared; try exact L; left; reflexivity.
Qed.
Print Assumptions C79_words_are_confirmed_partial.

(** ** The hypotheses are met *)
Definition corrected : list note := (pets ++ Object (txt "tom") (txt "dog") :: ahead)%list.
Lemma corrected_lines : map line (pets ++ [Object (txt "tom") (txt "dog")]) = map txt ["let (tom (-> cat))"; "let (cat (-> animal))"; "let (dog (-> animal))"; "let (tom (-> dog))"].
Proof. reflexivity. Qed.
Definition corrected_answers : list text := (map txt [""; ""; ""] ++ txt "tom already reduces to cat" :: ahead_answers)%list.
Lemma corrected_answered : texts_b (run_session cfg0 fuel0 (map line corrected) context0) corrected_answers = true.
Proof. vm_compute. reflexivity. Qed.
Lemma tom_common B : alike (declared [] pets) B -> common B (txt "tom").
Proof.
  intros A. apply common_all.
  - intros u v J. apply A in J. cbn in J. intros K. cbn in K. decompose [or False] J; match goal with X : (_, _) = (u, v) |- _ => injection X as <- <- end; decompose [or False] K; discriminate.
  - intros K. cbn in K. decompose [or False] K; discriminate.
Qed.
Lemma corrected_written : written (c_snap context0) (map fst (names_of built_in_words)) [] corrected.
Proof.
  pose proof (proj1 both_written) as H. revert H. generalize (map fst (names_of built_in_words)). generalize (c_snap context0). intros s W H.
  unfold corrected, pets in *. cbn [app] in *.
  inversion H as [|? ? ? ? ? U1 U2 N1 H1| | | | | | | | | | | | | |]; subst. inversion H1 as [|? ? ? ? ? U3 U4 N2 H2| | | | | | | | | | | | | |]; subst.
  inversion H2 as [|? ? ? ? ? U5 U6 N3 H3| | | | | | | | | | | | | |]; subst.
  apply WrittenTell; [exact U1|exact U2|exact N1|]. apply WrittenTell; [exact U3|exact U4|exact N2|]. apply WrittenTell; [exact U5|exact U6|exact N3|].
  eapply WrittenObject; [cbn; tauto|cbn; tauto| | |exact H3].
  - apply tom_common. intros w v. cbn. tauto.
  - apply ObjectionKept with (u := txt "cat"); [cbn; tauto|discriminate].
Qed.
Example C78_example : exists c d, fair cfg0 /\ turned_down (Object (txt "tom") (txt "dog")) /\
  written (c_snap context0) (map fst (names_of built_in_words)) [] (pets ++ Object (txt "tom") (txt "dog") :: ahead) /\ tidy (pets ++ Object (txt "tom") (txt "dog") :: ahead) = true /\
  run_session cfg0 fuel0 (map line (pets ++ Object (txt "tom") (txt "dog") :: ahead)) context0 = Ok (map txt [""; ""; ""] ++ txt "tom already reduces to cat" :: ahead_answers, c)%list /\
  Forall2 silent (pets ++ Object (txt "tom") (txt "dog") :: ahead) (map txt [""; ""; ""] ++ txt "tom already reduces to cat" :: ahead_answers)%list /\
  run_session cfg0 fuel0 (map line (pets ++ ahead)) context0 = Ok (map txt [""; ""; ""] ++ ahead_answers, d)%list /\
  Forall2 silent (pets ++ ahead) (map txt [""; ""; ""] ++ ahead_answers)%list.
Proof.
  destruct (texts_ok _ _ corrected_answered) as (c & E). destruct C72_example as (c0 & d0 & _ & _ & _ & _ & _ & _ & E' & SI' & _). exists c, c0.
  split; [exact fair0|]. split; [exact I|]. split; [exact corrected_written|]. split; [reflexivity|]. split; [exact E|]. split; [|split; [exact E'|exact SI']].
  unfold ahead_answers, pets, ahead. cbn [app map]. repeat (apply Forall2_cons; [first [reflexivity|exact I]|]). apply Forall2_nil.
Qed.

Lemma kept_answered : texts_b (run_session cfg0 fuel0 (map line (pets ++ [Check (txt "dog") (txt "cat"); Check (txt "tom") (txt "cat")])) context0) (map txt [""; ""; ""; "false"] ++ [txt "true"])%list = true.
Proof. vm_compute. reflexivity. Qed.
Example C79_example : exists c', fair cfg0 /\ accepting (txt "tom") (txt "cat") (Tell (txt "tom") (txt "cat")) /\
  Forall (leaves (txt "tom")) [Tell (txt "cat") (txt "animal"); Tell (txt "dog") (txt "animal"); Check (txt "dog") (txt "cat")] /\
  written (c_snap context0) (map fst (names_of built_in_words)) []
    ([] ++ Tell (txt "tom") (txt "cat") :: [Tell (txt "cat") (txt "animal"); Tell (txt "dog") (txt "animal"); Check (txt "dog") (txt "cat")] ++ [Check (txt "tom") (txt "cat")]) /\
  run_session cfg0 fuel0 (map line ([] ++ Tell (txt "tom") (txt "cat") :: [Tell (txt "cat") (txt "animal"); Tell (txt "dog") (txt "animal"); Check (txt "dog") (txt "cat")] ++ [Check (txt "tom") (txt "cat")])) context0 =
    Ok (map txt [""; ""; ""; "false"] ++ [txt "true"], c')%list /\
  Forall2 silent ([] ++ Tell (txt "tom") (txt "cat") :: [Tell (txt "cat") (txt "animal"); Tell (txt "dog") (txt "animal"); Check (txt "dog") (txt "cat")]) (map txt [""; ""; ""; "false"]).
Proof.
  destruct (texts_ok _ _ kept_answered) as (c' & E). exists c'. split; [exact fair0|]. split; [left; reflexivity|]. split; [repeat constructor; exact I|].
  split; [|split; [exact E|repeat constructor]]. apply (pets_written [Check (txt "dog") (txt "cat"); Check (txt "tom") (txt "cat")]). repeat (constructor; [cbn; tauto|]). constructor.
Qed.
