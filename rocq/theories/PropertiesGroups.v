(** C67: expressions made of words with any brackets, in sessions of declarations. *)
From Verif Require Import Start Lexer LexerSpec Snapshot Search Context StoreSpec NameSpec StoreInv StoreFacts MapFacts AstFacts History Steps Keep Sim Meaning Settled Links CacheLife Displays Sample Witness NameWitness
  Spelled Asking Unruled Answers Replies Checks Phrases Groups Notebook Notes PropertiesAnswers PropertiesWords PropertiesUttered PropertiesNotebook PropertiesChecks PropertiesPhrases.
From Coq Require Import String List Relations PeanoNat Bool Lia.
Import ListNotations.
Local Open Scope string_scope.

(** ** C67 *)
(** The full property would be that the answer is the same expression with each word replaced by the one at the end of
    its chain.  Missing: that the answer is grouped as the expression was.  This is refuted below. *)
(** In a store that is kept as a notebook, an expression made of words is answered with the words at the ends of their
    chains, in the same order and with some brackets, and nothing is changed. *)
Theorem C67_the_words_of_expressions_partial cfg fuel c V B p answer c' :
  fair cfg -> dbg cfg = true -> reachable_with true (links_safe true) c -> c_cache c = empty_cache ->
  notebook (c_snap c) V B -> phrasing (c_snap c) V -> ending (map fst V) B ->
  compound p -> Forall (fun w => In w (map fst V) /\ common B w) (words_of p) ->
  execute cfg fuel (spelled p) c = Ok (answer, c') ->
  (exists vs, Forall2 (leads_to B) (words_of p) vs /\ bare answer = joined vs) /\ c_snap c' = c_snap c.
Proof.
  intros F D R K NB PH EN CP WS E. destruct (nb_arrow _ _ _ NB) as (ar & Ja & Ka).
  destruct (grouped_next cfg fuel F D (spelled p) c c' V B (words_of p) ar answer R NB PH EN Ja Ka (asked_empty _ _ _ _ R K)
    (or_introl (ex_intro _ p (conj CP (conj eq_refl eq_refl)))) WS E) as (A & S & _). auto.
Qed.
Print Assumptions C67_the_words_of_expressions_partial.

(** In a session with a new interpreter, whatever was declared, asked and evaluated before. *)
Theorem C67_the_words_in_sessions_partial cfg fuel notes p answers a c' :
  fair cfg -> dbg cfg = true -> written (c_snap context0) (map fst (names_of built_in_words)) [] (notes ++ [Group p]) ->
  run_session cfg fuel (map line (notes ++ [Group p])) context0 = Ok (answers ++ [a], c')%list -> Forall2 silent notes answers ->
  exists vs, Forall2 (leads_to (declared [] notes)) (words_of p) vs /\ bare a = joined vs.
Proof.
  intros F D W E SI.
  assert (SI' : Forall2 silent (notes ++ [Group p]) (answers ++ [a])%list) by (apply Forall2_app; [exact SI|constructor; [exact I|constructor]]).
  pose proof (C63_new_interpreters_take_notes cfg fuel _ _ c' F D W E SI') as H. apply replies_last in H.
  inversion H; subst; eauto.
Qed.
Print Assumptions C67_the_words_in_sessions_partial.

(** ** Sessions with a new interpreter *)
Definition tom : phrase := Word (txt "tom").
Definition tell_tom : note := Tell (txt "tom") (txt "cat").
(** [(tom (tom tom)) tom] and [tom (((tom tom) tom) tom)] *)
Definition early : phrase := Both (Both tom (Both tom tom)) tom.
Definition late : phrase := Both tom (Both (Both (Both tom tom) tom) tom).
(** [tom ((tom tom) tom)] and [tom (tom (tom tom))] *)
Definition leaning : phrase := Both tom (Both (Both tom tom) tom).
Definition straight : phrase := Both tom (Both tom (Both tom tom)).
Lemma toms_lines : map line [tell_tom; Group early; Group late; Group leaning; Group straight] =
  map txt ["let (tom (-> cat))"; "(tom (tom tom)) tom"; "tom (((tom tom) tom) tom)"; "tom ((tom tom) tom)"; "tom (tom (tom tom))"].
Proof. reflexivity. Qed.
Lemma tom_words : plain_word_b (txt "tom") && plain_word_b (txt "cat") && unknown_b (c_snap context0) (txt "tom") && unknown_b (c_snap context0) (txt "cat") = true.
Proof. vm_compute. reflexivity. Qed.
Lemma toms_written ps : Forall (fun p => compound p /\ Forall (fun w => w = txt "tom") (words_of p)) ps ->
  written (c_snap context0) (map fst (names_of built_in_words)) [] (tell_tom :: map Group ps).
Proof.
  pose proof tom_words as H. revert H. generalize (c_snap context0). intros s H. do 3 (apply andb_prop in H; destruct H as [H ?]).
  assert (NEW : forall W w, plain_word_b w = true -> unknown_b s w = true -> usable s W w).
  { intros W w P U. destruct (plain_word_ok w P). split; [assumption|]. split; [assumption|]. right. exact (unknown_ok _ _ U). }
  intros PS. apply WrittenTell; [apply NEW; assumption|apply NEW; assumption|intros u []|].
  generalize (map fst (names_of built_in_words)). intros W. induction PS as [|p ps [C P] _ IH]; [constructor|].
  apply WrittenGroup; [exact C| |exact IH]. eapply Forall_impl; [|exact P]. intros w ->. split; [left; reflexivity|].
  apply common_all.
  - intros u v [E|[]] R. injection E as _ <-. cbn in R. decompose [or False] R; discriminate.
  - intros R. cbn in R. decompose [or False] R; discriminate.
Qed.
Notation after_tom ps := (run_session cfg0 fuel0 (map line (tell_tom :: map Group ps)) context0).
Lemma toms_answered :
  texts_b (after_tom [late]) (map txt [""; "cat (cat cat) cat cat"]) &&
  texts_b (after_tom [early; late]) (map txt [""; "(cat cat cat) cat"; "cat cat cat cat cat"]) &&
  texts_b (after_tom [leaning]) (map txt [""; "cat cat cat cat"]) &&
  texts_b (after_tom [straight]) (map txt [""; "cat cat cat cat"]) = true.
Proof. vm_compute. reflexivity. Qed.
Lemma toms_ran ps notes answers : texts_b (after_tom ps) answers = true -> notes = tell_tom :: map Group ps ->
  exists c', run_session cfg0 fuel0 (map line notes) context0 = Ok (answers, c').
Proof. intros H ->. exact (texts_ok _ _ H). Qed.
(** The sessions are written as the theorems require, and the first theorem's hypotheses are met by a new interpreter. *)
Example C67_example : exists c', fair cfg0 /\ reachable_with true (links_safe true) context0 /\ c_cache context0 = empty_cache /\
  notebook (c_snap context0) (names_of built_in_words) [] /\ phrasing (c_snap context0) (names_of built_in_words) /\ ending (map fst (names_of built_in_words)) [] /\
  written (c_snap context0) (map fst (names_of built_in_words)) [] ([tell_tom; Group early] ++ [Group late]) /\
  run_session cfg0 fuel0 (map line ([tell_tom; Group early] ++ [Group late])) context0 =
    Ok (map txt [""; "(cat cat cat) cat"] ++ [txt "cat cat cat cat cat"], c')%list /\
  Forall2 silent [tell_tom; Group early] (map txt [""; "(cat cat cat) cat"]).
Proof.
  pose proof toms_answered as H. apply andb_prop in H; destruct H as [H H4]. apply andb_prop in H; destruct H as [H H3]. apply andb_prop in H; destruct H as [H1 H2].
  destruct (toms_ran _ ([tell_tom; Group early] ++ [Group late]) _ H2 eq_refl) as (c' & E).
  exists c'. split; [exact fair0|]. split; [exact context0_linked|]. split; [reflexivity|]. split; [exact context0_notebook|].
  split; [exact context0_phrasing|]. split; [exact (ending_empty _)|]. split; [apply (toms_written [early; late]); repeat constructor|].
  split; [exact E|]. constructor; [reflexivity|]. constructor; [exact I|constructor].
Qed.

(** *** What is not so *)
(** What is answered to an expression depends on the expressions evaluated before, although nothing else was declared. *)
Theorem C67_brackets_depend_on_earlier_questions_refuted : exists p q a b answers c1 c2,
  written (c_snap context0) (map fst (names_of built_in_words)) [] [tell_tom; Group p] /\
  written (c_snap context0) (map fst (names_of built_in_words)) [] [tell_tom; Group q; Group p] /\
  run_session cfg0 fuel0 (map line [tell_tom; Group p]) context0 = Ok ([[]; a], c1) /\
  run_session cfg0 fuel0 (map line [tell_tom; Group q; Group p]) context0 = Ok ([[]; answers; b], c2) /\ a <> b.
Proof.
  pose proof toms_answered as H. apply andb_prop in H; destruct H as [H H4]. apply andb_prop in H; destruct H as [H H3]. apply andb_prop in H; destruct H as [H1 H2].
  destruct (toms_ran _ [tell_tom; Group early; Group late] _ H2 eq_refl) as (c2 & E2).
  destruct (toms_ran _ [tell_tom; Group late] _ H1 eq_refl) as (c1 & E1). exists late, early. do 3 eexists. exists c1, c2.
  split; [apply (toms_written [late]); repeat constructor|]. split; [apply (toms_written [early; late]); repeat constructor|].
  split; [exact E1|]. split; [exact E2|]. discriminate.
Qed.
Print Assumptions C67_brackets_depend_on_earlier_questions_refuted.
(** Expressions that are grouped differently are answered with the same text. *)
Theorem C67_groupings_are_lost_refuted : exists p q a c1 c2, p <> q /\
  written (c_snap context0) (map fst (names_of built_in_words)) [] [tell_tom; Group p] /\
  written (c_snap context0) (map fst (names_of built_in_words)) [] [tell_tom; Group q] /\
  run_session cfg0 fuel0 (map line [tell_tom; Group p]) context0 = Ok ([[]; a], c1) /\
  run_session cfg0 fuel0 (map line [tell_tom; Group q]) context0 = Ok ([[]; a], c2).
Proof.
  pose proof toms_answered as H. apply andb_prop in H; destruct H as [H H4]. apply andb_prop in H; destruct H as [H H3]. apply andb_prop in H; destruct H as [H1 H2].
  destruct (toms_ran _ [tell_tom; Group leaning] _ H3 eq_refl) as (c1 & E1).
  destruct (toms_ran _ [tell_tom; Group straight] _ H4 eq_refl) as (c2 & E2).
  exists leaning, straight. eexists. exists c1, c2. split; [discriminate|].
  split; [apply (toms_written [leaning]); repeat constructor|]. split; [apply (toms_written [straight]); repeat constructor|].
  split; [exact E1|exact E2].
Qed.
Print Assumptions C67_groupings_are_lost_refuted.
