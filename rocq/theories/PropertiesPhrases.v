(** C66: sequences of words, in sessions of declarations. *)
From Verif Require Import Start Lexer LexerSpec Snapshot Search Context StoreSpec NameSpec StoreInv StoreFacts MapFacts AstFacts History Steps Keep Sim Meaning Settled Links CacheLife Displays Sample Witness NameWitness
  Spelled Asking Unruled Answers Replies Checks Phrases Groups Notebook Notes PropertiesAnswers PropertiesWords PropertiesUttered PropertiesNotebook PropertiesChecks.
From Coq Require Import String List Relations PeanoNat Bool Lia.
Import ListNotations.
Local Open Scope string_scope.

(** ** C66 *)
(** In a store that is kept as a notebook, a sequence of words, grouped to the right, is answered with the sequence of
    the words at the ends of their chains, and nothing is changed. *)
Theorem C66_sequences_are_evaluated_word_by_word cfg fuel c V B ws answer c' :
  fair cfg -> dbg cfg = true -> reachable_with true (links_safe true) c -> c_cache c = empty_cache ->
  notebook (c_snap c) V B -> phrasing (c_snap c) V -> ending (map fst V) B ->
  le 2 (List.length ws) -> Forall (fun w => In w (map fst V) /\ common B w) ws ->
  execute cfg fuel (spelled (row ws)) c = Ok (answer, c') ->
  (exists vs, Forall2 (leads_to B) ws vs /\ answer = joined vs) /\ c_snap c' = c_snap c.
Proof.
  intros F D R K NB PH EN L2 WS E. destruct (nb_arrow _ _ _ NB) as (ar & Ja & Ka).
  destruct (phrased_next cfg fuel F D false c c' V B ws ar answer R NB PH EN Ja Ka (asked_empty _ _ _ _ R K) L2 WS (fun X => False_ind _ (Bool.diff_false_true X)) E) as (A & S & _). auto.
Qed.
Print Assumptions C66_sequences_are_evaluated_word_by_word.

(** In a session with a new interpreter, whatever was declared and asked before, if no other expressions were evaluated. *)
Theorem C66_sequences_in_sessions cfg fuel notes ws answers a c' :
  fair cfg -> dbg cfg = true -> written (c_snap context0) (map fst (names_of built_in_words)) [] (notes ++ [Phrase ws]) ->
  tidy notes = true -> run_session cfg fuel (map line (notes ++ [Phrase ws])) context0 = Ok (answers ++ [a], c')%list -> Forall2 silent notes answers ->
  exists vs, Forall2 (leads_to (declared [] notes)) ws vs /\ a = joined vs.
Proof.
  intros F D W T E SI.
  assert (SI' : Forall2 silent (notes ++ [Phrase ws]) (answers ++ [a])%list) by (apply Forall2_app; [exact SI|constructor; [exact I|constructor]]).
  pose proof (C63_new_interpreters_take_notes cfg fuel _ _ c' F D W E SI') as H. apply replies_last in H.
  assert (T' : tidy (notes ++ [Phrase ws]) = true) by (unfold tidy in *; rewrite forallb_app, T; reflexivity). rewrite T' in H.
  inversion H; subst; eauto.
Qed.
Print Assumptions C66_sequences_in_sessions.

(** ** A session with a new interpreter *)
Definition band : list text := map txt ["tom"; "dog"; "tom"].
Definition band_notes : list note := [Tell (txt "tom") (txt "cat"); Tell (txt "cat") (txt "animal"); Tell (txt "dog") (txt "animal"); Phrase band; Ask (txt "tom"); Forget (txt "cat")].
Lemma band_lines : map line (band_notes ++ [Phrase band]) =
  map txt ["let (tom (-> cat))"; "let (cat (-> animal))"; "let (dog (-> animal))"; "tom (dog tom)"; "tom"; "forget cat"; "tom (dog tom)"].
Proof. reflexivity. Qed.
Lemma common_all B : (forall u v, In (u, v) B -> ~ In v reserved) -> forall w, ~ In w reserved -> common B w.
Proof.
  intros H w N z [<-|P]; [exact N|]. clear N. induction P as [w v J|w u v J _ IH]; [exact (H _ _ J)|exact IH].
Qed.
Lemma band_written : written (c_snap context0) (map fst (names_of built_in_words)) [] (band_notes ++ [Phrase band]).
Proof.
  pose proof pets_words as H. revert H. generalize (c_snap context0). intros s H. do 7 (apply andb_prop in H; destruct H as [H ?]).
  assert (NEW : forall W w, plain_word_b w = true -> unknown_b s w = true -> usable s W w).
  { intros W w P U. destruct (plain_word_ok w P). split; [assumption|]. split; [assumption|]. right. exact (unknown_ok _ _ U). }
  assert (OLD : forall W w, plain_word_b w = true -> In w W -> usable s W w).
  { intros W w P U. destruct (plain_word_ok w P). split; [assumption|]. split; [assumption|]. left. exact U. }
  assert (NR : forall w, In w (map txt ["tom"; "cat"; "animal"; "dog"]) -> ~ In w reserved).
  { intros w J R. cbn in J, R. decompose [or False] J; subst; decompose [or False] R; discriminate. }
  cbn [app band_notes].
  apply WrittenTell; [apply NEW; assumption|apply NEW; assumption|intros u []|].
  apply WrittenTell; [apply OLD; [assumption|right; left; reflexivity]|apply NEW; assumption|intros u [E|[]]; discriminate|].
  apply WrittenTell; [apply NEW; assumption|apply OLD; [assumption|right; left; reflexivity]|intros u [E|[E|[]]]; discriminate|].
  match goal with |- written _ (?a :: ?b :: ?c :: ?d :: ?e :: ?f :: ?W) _ _ => generalize W end. intros W.
  set (W' := txt "dog" :: txt "animal" :: txt "cat" :: txt "animal" :: txt "tom" :: txt "cat" :: W).
  assert (BD : forall B, (forall u v, In (u, v) B -> In v (map txt ["tom"; "cat"; "animal"; "dog"])) -> Forall (fun w => In w W' /\ common B w) band).
  { intros B HB. assert (CA : forall w, In w (map txt ["tom"; "cat"; "animal"; "dog"]) -> common B w).
    { intros w J. apply common_all; [intros u v K; exact (NR _ (HB _ _ K))|exact (NR _ J)]. }
    unfold W'. repeat constructor; try (apply CA; cbn; tauto); cbn [In]; tauto. }
  apply WrittenPhrase; [cbn; lia|apply BD; intros u v J; cbn in J; decompose [or False] J; try discriminate; match goal with X : _ = _ |- _ => injection X as _ <- end; cbn; tauto|].
  apply WrittenAsk; [unfold W'; cbn [In]; tauto|]. apply WrittenForget; [unfold W'; cbn [In]; tauto|].
  apply WrittenPhrase; [cbn; lia|apply BD; intros u v J; apply without_spec in J; destruct J as [J _]; cbn in J; decompose [or False] J; try discriminate; match goal with X : _ = _ |- _ => injection X as _ <- end; cbn; tauto|].
  constructor.
Qed.
Lemma band_answered : texts_b (run_session cfg0 fuel0 (map line (band_notes ++ [Phrase band])) context0)
  (map txt [""; ""; ""; "animal animal animal"; "animal"; ""] ++ [txt "cat animal cat"])%list = true.
Proof. vm_compute. reflexivity. Qed.
(** The hypotheses of both theorems are met: the first sequence is evaluated again after `cat` was forgotten. *)
Example C66_example : exists c', fair cfg0 /\ reachable_with true (links_safe true) context0 /\ c_cache context0 = empty_cache /\
  notebook (c_snap context0) (names_of built_in_words) [] /\ phrasing (c_snap context0) (names_of built_in_words) /\ ending (map fst (names_of built_in_words)) [] /\
  written (c_snap context0) (map fst (names_of built_in_words)) [] (band_notes ++ [Phrase band]) /\
  tidy band_notes = true /\ run_session cfg0 fuel0 (map line (band_notes ++ [Phrase band])) context0 =
    Ok (map txt [""; ""; ""; "animal animal animal"; "animal"; ""] ++ [txt "cat animal cat"], c')%list /\
  Forall2 silent band_notes (map txt [""; ""; ""; "animal animal animal"; "animal"; ""]).
Proof.
  destruct (texts_ok _ _ band_answered) as (c' & E). exists c'. split; [exact fair0|]. split; [exact context0_linked|]. split; [reflexivity|].
  split; [exact context0_notebook|]. split; [exact context0_phrasing|]. split; [exact (ending_empty _)|]. split; [exact band_written|]. split; [reflexivity|].
  split; [exact E|]. repeat constructor.
Qed.
