(** C68: sequences and questions written without brackets, in sessions of declarations. *)
From Verif Require Import Start Lexer LexerSpec Snapshot Search Context StoreSpec NameSpec StoreInv StoreFacts MapFacts AstFacts History Steps Keep Sim Meaning Settled Links CacheLife Displays Sample Witness NameWitness
  Spelled Asking Unruled Answers Replies Checks Phrases Groups Flat Notebook Notes PropertiesAnswers PropertiesWords PropertiesUttered PropertiesNotebook PropertiesChecks PropertiesPhrases.
From Coq Require Import String List Relations PeanoNat Bool Lia.
Import ListNotations.
Local Open Scope string_scope.

(** ** Specification *)
(** The second line is the first one, or the first one without its brackets. *)
Inductive loosened : note -> note -> Prop :=
| LoosenedNot n : loosened n n
| LoosenedCheck w v : loosened (Check w v) (PlainCheck w v)
| LoosenedPhrase ws : loosened (Phrase ws) (PlainPhrase ws)
| LoosenedDoubt w v : loosened (Doubt false w v) (Doubt true w v).

(** ** Lemmas *)
Lemma loosened_written s W B ms : written s W B ms -> forall ns, Forall2 loosened ns ms -> written s W B ns.
Proof.
  induction 1; intros xs L; inversion L as [|x y xs' ys' X XS]; subst; [constructor|..]; inversion X; subst; econstructor; eauto; discriminate.
Qed.
Lemma loosened_replies td B ms answers : replies td B ms answers -> forall ns, Forall2 loosened ns ms -> replies td B ns answers.
Proof.
  induction 1; intros xs L; inversion L as [|x y xs' ys' X XS]; subst; [constructor|..]; inversion X; subst; first [solve [econstructor; eauto]|apply RepliesRefused; eauto].
Qed.
Lemma loosened_tidy ns ms : Forall2 loosened ns ms -> tidy ns = tidy ms.
Proof. unfold tidy. induction 1 as [|n m ns ms X _ IH]; [reflexivity|]. cbn [forallb]. rewrite IH. destruct X; reflexivity. Qed.

(** ** C68 *)
(** In a store that is kept as a notebook, two or more words with spaces between them are answered with the words at the
    ends of their chains, and nothing is changed. *)
Theorem C68_sequences_need_no_brackets cfg fuel c V B ws answer c' :
  fair cfg -> dbg cfg = true -> reachable_with true (links_safe true) c -> c_cache c = empty_cache ->
  notebook (c_snap c) V B -> phrasing (c_snap c) V -> unbracketed (c_snap c) V -> ending (map fst V) B ->
  le 2 (List.length ws) -> Forall (fun w => In w (map fst V) /\ common B w) ws ->
  execute cfg fuel (joined ws) c = Ok (answer, c') ->
  (exists vs, Forall2 (leads_to B) ws vs /\ answer = joined vs) /\ c_snap c' = c_snap c.
Proof.
  intros F D R K NB PH UB EN L2 WS E. destruct (nb_arrow _ _ _ NB) as (ar & Ja & Ka).
  destruct (phrased_next cfg fuel F D true c c' V B ws ar answer R NB PH EN Ja Ka (asked_empty _ _ _ _ R K) L2 WS (fun _ => UB) E) as (A & S & _). auto.
Qed.
Print Assumptions C68_sequences_need_no_brackets.

(** That is also how it can be asked whether one word reduces to another one. *)
Theorem C68_questions_need_no_brackets cfg fuel c V B w v m n z answer c' :
  fair cfg -> dbg cfg = true -> reachable_with true (links_safe true) c -> c_cache c = empty_cache ->
  notebook (c_snap c) V B -> inquiry (c_snap c) V -> unbracketed (c_snap c) V -> ending (map fst V) B ->
  In w (map fst V) -> In v (map fst V) -> ~ In w reserved -> ~ In v reserved ->
  away B m w z -> away B n v z -> ~ In z [txt "let"; txt "forget"; txt "label_of"] ->
  execute cfg fuel (joined [w; txt "->"; v]) c = Ok (answer, c') ->
  answer = yes_or_no (Nat.ltb n m) /\ c_snap c' = c_snap c.
Proof.
  intros F D R K NB IQ UB EN Jw Jv Nw Nv Aw Av NZ E. destruct (nb_arrow _ _ _ NB) as (ar & Ja & Ka).
  destruct (agreed_next cfg fuel F D true true c c' V B w v m n z ar answer R NB IQ EN Ja Ka (asked_empty _ _ _ _ R K) Jw Jv Aw Av NZ
    (fun _ => conj UB (conj Nw Nv)) E) as (A & S & _). auto.
Qed.
Print Assumptions C68_questions_need_no_brackets.

(** In sessions with a new interpreter it makes no difference for any of the answers which brackets are left out. *)
Theorem C68_brackets_make_no_difference cfg fuel cfg' fuel' notes loose answers others c d :
  fair cfg -> dbg cfg = true -> fair cfg' -> dbg cfg' = true ->
  Forall2 loosened notes loose -> written (c_snap context0) (map fst (names_of built_in_words)) [] loose -> tidy loose = true ->
  run_session cfg fuel (map line notes) context0 = Ok (answers, c) -> Forall2 silent notes answers ->
  run_session cfg' fuel' (map line loose) context0 = Ok (others, d) -> Forall2 silent loose others ->
  answers = others.
Proof.
  intros F D F' D' L W T E SI E' SI'. pose proof (loosened_written _ _ _ _ W _ L) as W'.
  pose proof (C63_new_interpreters_take_notes cfg fuel _ _ c F D W' E SI) as H. rewrite (loosened_tidy _ _ L), T in H.
  pose proof (C63_new_interpreters_take_notes cfg' fuel' _ _ d F' D' W E' SI') as H'. rewrite T in H'.
  refine (C63_answers_are_determined _ _ _ _ _ _ _ W' _ H (loosened_replies _ _ _ _ H' _ L)).
  - intros x y z [].
  - rewrite (loosened_tidy _ _ L). exact T.
Qed.
Print Assumptions C68_brackets_make_no_difference.

(** ** A session with a new interpreter *)
Definition strict_notes : list note := (pets ++ [Phrase band; Check (txt "tom") (txt "cat"); Phrase band; Ask (txt "dog")])%list.
Definition loose_notes : list note := (pets ++ [PlainPhrase band; PlainCheck (txt "tom") (txt "cat"); Phrase band; Ask (txt "dog")])%list.
Definition loose_replies : list text := map txt [""; ""; ""; "animal animal animal"; "true"; "animal animal animal"; "animal"].
Lemma loose_lines : map line loose_notes =
  map txt ["let (tom (-> cat))"; "let (cat (-> animal))"; "let (dog (-> animal))"; "tom dog tom"; "tom -> cat"; "tom (dog tom)"; "dog"].
Proof. reflexivity. Qed.
Lemma loose_loosened : Forall2 loosened strict_notes loose_notes.
Proof. repeat constructor. Qed.
Lemma loose_written : written (c_snap context0) (map fst (names_of built_in_words)) [] loose_notes.
Proof.
  pose proof pets_words as H. revert H. generalize (c_snap context0). intros s H. do 7 (apply andb_prop in H; destruct H as [H ?]).
  assert (NEW : forall W w, plain_word_b w = true -> unknown_b s w = true -> usable s W w).
  { intros W w P U. destruct (plain_word_ok w P). split; [assumption|]. split; [assumption|]. right. exact (unknown_ok _ _ U). }
  assert (OLD : forall W w, plain_word_b w = true -> In w W -> usable s W w).
  { intros W w P U. destruct (plain_word_ok w P). split; [assumption|]. split; [assumption|]. left. exact U. }
  assert (NR : forall w, In w (map txt ["tom"; "cat"; "animal"; "dog"]) -> ~ In w reserved).
  { intros w J R. cbn in J, R. decompose [or False] J; subst; decompose [or False] R; discriminate. }
  unfold loose_notes. cbn [app pets].
  apply WrittenTell; [apply NEW; assumption|apply NEW; assumption|intros u []|].
  apply WrittenTell; [apply OLD; [assumption|right; left; reflexivity]|apply NEW; assumption|intros u [E|[]]; discriminate|].
  apply WrittenTell; [apply NEW; assumption|apply OLD; [assumption|right; left; reflexivity]|intros u [E|[E|[]]]; discriminate|].
  match goal with |- written _ (?a :: ?b :: ?c :: ?d :: ?e :: ?f :: ?W) _ _ => generalize W end. intros W.
  change [(txt "dog", txt "animal"); (txt "cat", txt "animal"); (txt "tom", txt "cat")] with (declared [] pets).
  set (W' := txt "dog" :: txt "animal" :: txt "cat" :: txt "animal" :: txt "tom" :: txt "cat" :: W).
  assert (CA : forall w, In w (map txt ["tom"; "cat"; "animal"; "dog"]) -> common (declared [] pets) w).
  { intros w J. apply common_all; [|exact (NR _ J)]. intros u v K. apply NR. cbn in K. decompose [or False] K; try contradiction;
      match goal with X : _ = _ |- _ => injection X as _ <- end; cbn; tauto. }
  assert (BD : Forall (fun w => In w W' /\ common (declared [] pets) w) band).
  { unfold W'. repeat constructor; try (apply CA; cbn; tauto); cbn [In]; tauto. }
  apply WrittenPlainPhrase; [cbn; lia|exact BD|].
  apply (WrittenPlainCheck _ _ _ _ _ (txt "animal")); [unfold W'; cbn [In]; tauto|unfold W'; cbn [In]; tauto|apply pets_lead; cbn; tauto|apply pets_lead; cbn; tauto| | | |].
  { intros J. cbn in J. decompose [or False] J; discriminate. }
  { apply NR. cbn. tauto. }
  { apply NR. cbn. tauto. }
  apply WrittenPhrase; [cbn; lia|exact BD|]. apply WrittenAsk; [unfold W'; cbn [In]; tauto|]. constructor.
Qed.
Lemma loose_answered : texts_b (run_session cfg0 fuel0 (map line loose_notes) context0) loose_replies &&
  texts_b (run_session cfg0 fuel0 (map line strict_notes) context0) loose_replies = true.
Proof. vm_compute. reflexivity. Qed.
Example C68_example : exists c d, fair cfg0 /\ reachable_with true (links_safe true) context0 /\ c_cache context0 = empty_cache /\
  notebook (c_snap context0) (names_of built_in_words) [] /\ inquiry (c_snap context0) (names_of built_in_words) /\
  phrasing (c_snap context0) (names_of built_in_words) /\ unbracketed (c_snap context0) (names_of built_in_words) /\ ending (map fst (names_of built_in_words)) [] /\
  Forall2 loosened strict_notes loose_notes /\ written (c_snap context0) (map fst (names_of built_in_words)) [] loose_notes /\ tidy loose_notes = true /\
  run_session cfg0 fuel0 (map line strict_notes) context0 = Ok (loose_replies, c) /\ Forall2 silent strict_notes loose_replies /\
  run_session cfg0 fuel0 (map line loose_notes) context0 = Ok (loose_replies, d) /\ Forall2 silent loose_notes loose_replies.
Proof.
  pose proof loose_answered as H. apply andb_prop in H. destruct H as [H1 H2].
  destruct (texts_ok _ _ H2) as (c & E2). destruct (texts_ok _ _ H1) as (d & E1).
  exists c, d. split; [exact fair0|]. split; [exact context0_linked|]. split; [reflexivity|]. split; [exact context0_notebook|]. split; [exact context0_inquiry|].
  split; [exact context0_phrasing|]. split; [exact context0_unbracketed|]. split; [exact (ending_empty _)|]. split; [exact loose_loosened|]. split; [exact loose_written|].
  split; [reflexivity|]. split; [exact E2|]. split; [repeat constructor|]. split; [exact E1|]. repeat constructor.
Qed.
