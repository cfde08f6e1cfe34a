(** C71: names are kept in sessions of declarations, whatever the words are declared to reduce to. *)
From Verif Require Import Start Lexer LexerSpec Snapshot Search Context StoreSpec NameSpec StoreInv StoreFacts MapFacts AstFacts History Steps Keep Sim Meaning Settled Links CacheLife Displays Sample Witness NameWitness
  Spelled Asking Unruled Answers Replies Checks Phrases Groups Flat Outlines Notebook Notes PropertiesAnswers PropertiesWords PropertiesUttered PropertiesNotebook PropertiesChecks.
From Coq Require Import String List Relations PeanoNat Bool Lia.
Import ListNotations.
Local Open Scope string_scope.

(** ** C71 *)
(** In a store that is kept as a notebook, the name of each known word is that word, and nothing is changed by asking. *)
Theorem C71_words_keep_their_names cfg fuel c V B w answer c' :
  fair cfg -> dbg cfg = true -> reachable_with true (links_safe true) c -> c_cache c = empty_cache ->
  notebook (c_snap c) V B -> inquiry (c_snap c) V -> In w (map fst V) ->
  execute cfg fuel (txt "label_of " ++ w)%list c = Ok (answer, c') ->
  answer = (txt "'" ++ w ++ txt "'")%list /\ c_snap c' = c_snap c.
Proof.
  intros F D R K NB IQ Jw E.
  destruct (named_next cfg fuel F D (fun _ _ => True) c c' V B w answer R NB IQ (asked_empty _ _ _ _ R K) Jw E) as (A & S & _). auto.
Qed.
Print Assumptions C71_words_keep_their_names.

(** In a session with a new interpreter, whatever was declared, forgotten, asked, evaluated and refused before. *)
Theorem C71_names_in_sessions cfg fuel notes w answers a c' :
  fair cfg -> dbg cfg = true -> written (c_snap context0) (map fst (names_of built_in_words)) [] (notes ++ [NameOf w]) ->
  run_session cfg fuel (map line (notes ++ [NameOf w])) context0 = Ok (answers ++ [a], c')%list -> Forall2 silent notes answers ->
  a = (txt "'" ++ w ++ txt "'")%list.
Proof.
  intros F D W E SI.
  assert (SI' : Forall2 silent (notes ++ [NameOf w]) (answers ++ [a])%list) by (apply Forall2_app; [exact SI|constructor; [exact I|constructor]]).
  pose proof (C63_new_interpreters_take_notes cfg fuel _ _ c' F D W E SI') as H. apply replies_last in H. inversion H; subst. reflexivity.
Qed.
Print Assumptions C71_names_in_sessions.

(** So different words have different names, even if they come to mean the same, also in different sessions. *)
Theorem C71_names_are_not_confused cfg fuel cfg' fuel' notes notes' w v answers answers' a c d :
  fair cfg -> dbg cfg = true -> fair cfg' -> dbg cfg' = true ->
  written (c_snap context0) (map fst (names_of built_in_words)) [] (notes ++ [NameOf w]) ->
  written (c_snap context0) (map fst (names_of built_in_words)) [] (notes' ++ [NameOf v]) ->
  run_session cfg fuel (map line (notes ++ [NameOf w])) context0 = Ok (answers ++ [a], c)%list -> Forall2 silent notes answers ->
  run_session cfg' fuel' (map line (notes' ++ [NameOf v])) context0 = Ok (answers' ++ [a], d)%list -> Forall2 silent notes' answers' ->
  w = v.
Proof.
  intros F D F' D' W W' E SI E' SI'. pose proof (C71_names_in_sessions _ _ _ _ _ _ _ F D W E SI) as H.
  rewrite (C71_names_in_sessions _ _ _ _ _ _ _ F' D' W' E' SI') in H. apply app_inv_head, app_inv_tail in H. symmetry. exact H.
Qed.
Print Assumptions C71_names_are_not_confused.

(** Names can be asked for at any time: the other answers are the same without it. *)
Definition naming (n : note) : bool := match n with NameOf _ => true | _ => false end.
Definition unnamed (ns : list note) : list note := filter (fun n => negb (naming n)) ns.
Definition unnamed_answers (ns : list note) (answers : list text) : list text :=
  map snd (filter (fun p => negb (naming (fst p))) (combine ns answers)).
Lemma unnamed_written s W B ns : written s W B ns -> written s W B (unnamed ns).
Proof. induction 1; cbn [unnamed filter naming negb]; try assumption; econstructor; eassumption. Qed.
Lemma unnamed_tidy ns : tidy ns = true -> tidy (unnamed ns) = true.
Proof. unfold tidy. rewrite !forallb_forall. intros H n J. apply filter_In in J. apply H, J. Qed.
Lemma unnamed_replies td B ns answers : replies td B ns answers -> replies td B (unnamed ns) (unnamed_answers ns answers).
Proof.
  unfold unnamed_answers. induction 1; cbn [unnamed filter naming negb combine map snd fst]; try assumption; first [solve [econstructor; eassumption]|apply RepliesRefused; assumption].
Qed.
Theorem C71_asking_for_names_leaves_no_trace cfg fuel cfg' fuel' notes answers others c d :
  fair cfg -> dbg cfg = true -> fair cfg' -> dbg cfg' = true ->
  written (c_snap context0) (map fst (names_of built_in_words)) [] notes -> tidy notes = true ->
  run_session cfg fuel (map line notes) context0 = Ok (answers, c) -> Forall2 silent notes answers ->
  run_session cfg' fuel' (map line (unnamed notes)) context0 = Ok (others, d) -> Forall2 silent (unnamed notes) others ->
  others = unnamed_answers notes answers.
Proof.
  intros F D F' D' W T E SI E' SI'. pose proof (unnamed_written _ _ _ _ W) as W'. pose proof (unnamed_tidy _ T) as T'.
  pose proof (C63_new_interpreters_take_notes cfg fuel _ _ c F D W E SI) as H. pose proof (C63_new_interpreters_take_notes cfg' fuel' _ _ d F' D' W' E' SI') as H'.
  rewrite T in H. rewrite T' in H'. apply unnamed_replies in H.
  refine (C63_answers_are_determined _ _ _ _ _ _ _ W' T' H' H). intros x y z [].
Qed.
Print Assumptions C71_asking_for_names_leaves_no_trace.

(** ** A session with a new interpreter *)
Definition badges : list note := (pets ++ [NameOf (txt "tom"); Ask (txt "tom"); NameOf (txt "let"); Forget (txt "tom")])%list.
Definition badge_answers : list text := map txt [""; ""; ""; "'tom'"; "animal"; "'let'"; ""].
Lemma badge_lines : map line (badges ++ [NameOf (txt "cat")]) =
  map txt ["let (tom (-> cat))"; "let (cat (-> animal))"; "let (dog (-> animal))"; "label_of tom"; "tom"; "label_of let"; "forget tom"; "label_of cat"].
Proof. reflexivity. Qed.
Lemma badges_written : written (c_snap context0) (map fst (names_of built_in_words)) [] (badges ++ [NameOf (txt "cat")]).
Proof.
  assert (JL : In (txt "let") (map fst (names_of built_in_words))) by (cbn; tauto). revert JL. generalize (map fst (names_of built_in_words)). intros W JL.
  pose proof pets_words as H. revert H. generalize (c_snap context0). intros s H. do 7 (apply andb_prop in H; destruct H as [H ?]).
  assert (NEW : forall W w, plain_word_b w = true -> unknown_b s w = true -> usable s W w).
  { intros W1 w P U. destruct (plain_word_ok w P). split; [assumption|]. split; [assumption|]. right. exact (unknown_ok _ _ U). }
  assert (OLD : forall W w, plain_word_b w = true -> In w W -> usable s W w).
  { intros W1 w P U. destruct (plain_word_ok w P). split; [assumption|]. split; [assumption|]. left. exact U. }
  unfold badges. cbn [app pets].
  apply WrittenTell; [apply NEW; assumption|apply NEW; assumption|intros u []|].
  apply WrittenTell; [apply OLD; [assumption|right; left; reflexivity]|apply NEW; assumption|intros u [E|[]]; discriminate|].
  apply WrittenTell; [apply NEW; assumption|apply OLD; [assumption|right; left; reflexivity]|intros u [E|[E|[]]]; discriminate|].
  apply WrittenNameOf; [cbn [In]; tauto|]. apply WrittenAsk; [cbn [In]; tauto|]. apply WrittenNameOf; [cbn [In]; tauto|].
  apply WrittenForget; [cbn [In]; tauto|]. apply WrittenNameOf; [cbn [In]; tauto|constructor].
Qed.
Lemma badges_answered : texts_b (run_session cfg0 fuel0 (map line (badges ++ [NameOf (txt "cat")])) context0) (badge_answers ++ [txt "'cat'"])%list = true.
Proof. vm_compute. reflexivity. Qed.
Lemma badges_silent : Forall2 silent badges badge_answers.
Proof. unfold badges, badge_answers. cbn [app pets map]. repeat (apply Forall2_cons; [first [reflexivity|exact I]|]). apply Forall2_nil. Qed.
Example C71_example : exists c', fair cfg0 /\ written (c_snap context0) (map fst (names_of built_in_words)) [] (badges ++ [NameOf (txt "cat")]) /\
  tidy (badges ++ [NameOf (txt "cat")]) = true /\
  run_session cfg0 fuel0 (map line (badges ++ [NameOf (txt "cat")])) context0 = Ok (badge_answers ++ [txt "'cat'"], c')%list /\ Forall2 silent badges badge_answers /\
  leads_to (declared [] badges) (txt "cat") (txt "animal").
Proof.
  destruct (texts_ok _ _ badges_answered) as (c' & E). exists c'. split; [exact fair0|]. split; [exact badges_written|]. split; [reflexivity|]. split; [exact E|].
  split; [exact badges_silent|]. eapply LeadsOn; [|apply LeadsHere].
  - cbn. tauto.
  - intros v J. cbn in J. decompose [or False] J; discriminate.
Qed.
(** The hypotheses of the first theorem are met by a new interpreter. *)
Lemma assoc_named : texts_b (run_session cfg0 fuel0 (map txt ["label_of assoc"]) context0) (map txt ["'assoc'"]) = true.
Proof. vm_compute. reflexivity. Qed.
Example C71_single_example : exists c', fair cfg0 /\ reachable_with true (links_safe true) context0 /\ c_cache context0 = empty_cache /\
  notebook (c_snap context0) (names_of built_in_words) [] /\ inquiry (c_snap context0) (names_of built_in_words) /\ In (txt "assoc") (map fst (names_of built_in_words)) /\
  execute cfg0 fuel0 (txt "label_of " ++ txt "assoc")%list context0 = Ok (txt "'assoc'", c').
Proof.
  destruct (texts_ok _ _ assoc_named) as (c2 & E). apply session_first in E. destruct E as (a & rs & c1 & X & E & _). injection X as <- _.
  exists c1. split; [exact fair0|]. split; [exact context0_linked|]. split; [reflexivity|]. split; [exact context0_notebook|]. split; [exact context0_inquiry|].
  split; [cbn; tauto|exact E].
Qed.
