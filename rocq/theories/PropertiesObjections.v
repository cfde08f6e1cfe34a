(** C70: which declarations are refused in sessions of declarations, why, and that nothing is changed by them. *)
From Verif Require Import Start Lexer LexerSpec Snapshot Search Context StoreSpec NameSpec StoreInv StoreFacts MapFacts AstFacts History Steps Keep Sim Meaning Settled Links CacheLife Displays Sample Witness NameWitness
  Spelled Asking Unruled Answers Replies Checks Phrases Groups Flat Outlines Notebook Notes PropertiesAnswers PropertiesWords PropertiesUttered PropertiesNotebook PropertiesChecks PropertiesPhrases PropertiesGroups.
From Coq Require Import String List Relations PeanoNat Bool Lia.
Import ListNotations.
Local Open Scope string_scope.

(** ** C70 *)
(** In a store that is kept as a notebook, the declaration that the known word [w] reduces to the known word [v] is
    answered with nothing exactly if [w] does not reduce to anything yet and the chain of [v] does not end with [w].
    Otherwise the answer says which of the two it is, and nothing is changed.  But if [w] and [v] are the same word, and it
    reduces to something, then this is forgotten. *)
Theorem C70_declarations_are_judged cfg fuel c V B w v answer c' :
  fair cfg -> dbg cfg = true -> reachable_with true (links_safe true) c -> c_cache c = empty_cache ->
  notebook (c_snap c) V B -> inquiry (c_snap c) V -> phrasing (c_snap c) V -> ending (map fst V) B ->
  In w (map fst V) -> In v (map fst V) -> common B w ->
  execute cfg fuel (txt "let (" ++ w ++ txt " (-> " ++ v ++ txt "))")%list c = Ok (answer, c') ->
  ((forall u, ~ In (w, u) B) -> ~ leads_to B v w -> answer = []) /\
  (forall u, In (w, u) B -> w <> v -> answer = (w ++ txt " already reduces to " ++ u)%list /\ c_snap c' = c_snap c) /\
  ((forall u, ~ In (w, u) B) -> leads_to B v w -> w <> v ->
     answer = txt "Cannot allow a chain of reduction rules to loop." /\ c_snap c' = c_snap c) /\
  ((forall u, ~ In (w, u) B) -> w = v -> answer = (txt "That reduction rule for " ++ w ++ txt " already exists.")%list /\ c_snap c' = c_snap c) /\
  (forall u, In (w, u) B -> w = v -> answer = [] /\ notebook (c_snap c') V (without w B)).
Proof.
  intros F D R K NB IQ PH EN Jw Jv Cw E. destruct (nb_arrow _ _ _ NB) as (ar & Ja & Ka).
  assert (L : (txt "let (" ++ w ++ txt " (-> " ++ v ++ txt "))")%list = line (Tell w v)).
  { cbn. rewrite <- !app_assoc. reflexivity. }
  rewrite L in E. clear L.
  assert (G : forall b, objection B w v b -> answer = b /\ c_snap c' = c_snap c).
  { intros b Ob. destruct (objected_next cfg fuel F D true c c' V B w v ar answer b R NB IQ PH EN Ja Ka (asked_empty _ _ _ _ R K) Jw Jv Cw Ob E) as (A & S & _). auto. }
  split; [|split; [|split; [|split]]].
  - intros U N. exact (accepted_next cfg fuel F true c c' V B w v ar answer R NB IQ PH EN Ja Ka (asked_empty _ _ _ _ R K) Jw Jv Cw U N E).
  - intros u J N. apply G, ObjectionKept; assumption.
  - intros U L N. apply G, ObjectionLoop; assumption.
  - intros U <-. apply G, ObjectionSame; assumption.
  - intros u J <-. destruct (dropped_next cfg fuel F D false true c c' V B w u ar answer R NB (fun _ => conj IQ (conj PH Cw)) EN Ja Ka (asked_empty _ _ _ _ R K) Jw J E) as (A & _ & _ & _ & N & _). auto.
Qed.
Print Assumptions C70_declarations_are_judged.

(** So is forgetting what was not declared. *)
Theorem C70_nothing_to_forget cfg fuel c V B w answer c' :
  fair cfg -> dbg cfg = true -> reachable_with true (links_safe true) c -> c_cache c = empty_cache -> notebook (c_snap c) V B ->
  In w (map fst V) -> (forall u, ~ In (w, u) B) -> execute cfg fuel (txt "forget " ++ w)%list c = Ok (answer, c') ->
  answer = (txt "That reduction rule for " ++ w ++ txt " already exists.")%list /\ c_snap c' = c_snap c.
Proof.
  intros F D R K NB Jw U E. destruct (idle_next cfg fuel F D (fun _ _ => True) c c' V B w answer R NB (asked_empty _ _ _ _ R K) Jw U E) as (A & S & _). auto.
Qed.
Print Assumptions C70_nothing_to_forget.

(** What was declared is forgotten, and this is answered with nothing. *)
Theorem C70_declarations_are_forgotten cfg fuel c V B w u answer c' :
  fair cfg -> dbg cfg = true -> reachable_with true (links_safe true) c -> c_cache c = empty_cache -> notebook (c_snap c) V B -> ending (map fst V) B ->
  In w (map fst V) -> In (w, u) B -> execute cfg fuel (txt "forget " ++ w)%list c = Ok (answer, c') -> answer = [] /\ notebook (c_snap c') V (without w B).
Proof.
  intros F D R K NB EN Jw J E. destruct (nb_arrow _ _ _ NB) as (ar & Ja & Ka).
  destruct (dropped_next cfg fuel F D true true c c' V B w u ar answer R NB (fun X => False_ind _ (Bool.diff_true_false X)) EN Ja Ka (asked_empty _ _ _ _ R K) Jw J E) as (A & _ & _ & _ & N & _). auto.
Qed.
Print Assumptions C70_declarations_are_forgotten.

(** In a session with a new interpreter, whatever was declared, asked, evaluated and refused before. *)
Theorem C70_objections_in_sessions cfg fuel notes w v b answers a c' :
  fair cfg -> dbg cfg = true -> written (c_snap context0) (map fst (names_of built_in_words)) [] (notes ++ [Object w v]) ->
  run_session cfg fuel (map line (notes ++ [Object w v])) context0 = Ok (answers ++ [a], c')%list -> Forall2 silent notes answers ->
  objection (declared [] notes) w v b -> a = b.
Proof.
  intros F D W E SI Ob.
  assert (SI' : Forall2 silent (notes ++ [Object w v]) (answers ++ [a])%list) by (apply Forall2_app; [exact SI|constructor; [exact I|constructor]]).
  pose proof (C63_new_interpreters_take_notes cfg fuel _ _ c' F D W E SI') as H. apply replies_last in H.
  assert (S : single (declared [] notes)) by (apply (declared_single _ _ _ _ (fun w u v (J : In (w, u) []) _ => False_ind _ J) (written_before _ _ _ _ _ W))).
  inversion H; subst. eapply objection_once; eassumption.
Qed.
Print Assumptions C70_objections_in_sessions.

(** Declarations about known words are accepted if there is no objection. *)
Theorem C70_accepted_in_sessions cfg fuel notes w v answers a c' :
  fair cfg -> dbg cfg = true -> written (c_snap context0) (map fst (names_of built_in_words)) [] (notes ++ [Accept w v]) ->
  run_session cfg fuel (map line (notes ++ [Accept w v])) context0 = Ok (answers ++ [a], c')%list -> Forall2 silent notes answers -> a = [].
Proof.
  intros F D W E SI.
  assert (SI' : Forall2 silent (notes ++ [Accept w v]) (answers ++ [a])%list) by (apply Forall2_app; [exact SI|constructor; [exact I|constructor]]).
  pose proof (C63_new_interpreters_take_notes cfg fuel _ _ c' F D W E SI') as H. apply replies_last in H. inversion H; subst. reflexivity.
Qed.
Print Assumptions C70_accepted_in_sessions.
(** There is an objection to each declaration about known words that is not of that kind (but that a word which reduces to
    something reduces to itself, which forgets this). *)
Theorem C70_accepted_or_refused B w v : (exists z, leads_to B v z) -> single B -> w <> v \/ (forall u, ~ In (w, u) B) ->
  (exists a, objection B w v a) <-> ~ ((forall u, ~ In (w, u) B) /\ ~ leads_to B v w).
Proof.
  intros (z & Z) S K. destruct (existsb (fun p => text_eqb (fst p) w) B) eqn:X.
  - apply existsb_exists in X. destruct X as ([w' u] & J & X). cbn [fst] in X. destruct (text_eqb_spec w' w) as [->|]; [|discriminate].
    destruct K as [K|K]; [|destruct (K _ J)]. split; [intros _ [N _]; exact (N _ J)|]. intros _. eexists. exact (ObjectionKept B w v u J K).
  - assert (U : forall u, ~ In (w, u) B).
    { intros u J. enough (T : existsb (fun p => text_eqb (fst p) w) B = true) by congruence. apply existsb_exists. exists (w, u). split; [exact J|].
      cbn [fst]. destruct (text_eqb_spec w w); congruence. }
    clear X. destruct (list_eq_dec BinNat.N.eq_dec w v) as [->|N].
    { split; [intros _ [_ L]; apply L, LeadsHere, U|]. intros _. eexists. exact (ObjectionSame B v U). }
    destruct (list_eq_dec BinNat.N.eq_dec z w) as [->|NZ].
    + split; [intros _ [_ L]; exact (L Z)|]. intros _. eexists. exact (ObjectionLoop B w v U Z N).
    + assert (L : ~ leads_to B v w) by (intros L; exact (NZ (leads_to_one _ _ _ _ S Z L))).
      split; [|tauto]. intros (a & Ob). destruct Ob as [? ? u J _|? ? _ L' _|? _]; [destruct (U _ J)|destruct (L L')|destruct (N eq_refl)].
Qed.
Print Assumptions C70_accepted_or_refused.

(** What is refused could as well not have been said: the other answers are the same without it. *)
Definition refused (n : note) : bool := match n with Object _ _ | Idle _ => true | _ => false end.
Definition heeded (ns : list note) : list note := filter (fun n => negb (refused n)) ns.
Definition heeded_answers (ns : list note) (answers : list text) : list text :=
  map snd (filter (fun p => negb (refused (fst p))) (combine ns answers)).
Lemma heeded_written s W B ns : written s W B ns -> written s W B (heeded ns).
Proof. induction 1; cbn [heeded filter refused negb]; try assumption; econstructor; eassumption. Qed.
Lemma heeded_tidy ns : tidy ns = true -> tidy (heeded ns) = true.
Proof. unfold tidy. rewrite !forallb_forall. intros H n J. apply filter_In in J. apply H, J. Qed.
Lemma heeded_replies td B ns answers : replies td B ns answers -> replies td B (heeded ns) (heeded_answers ns answers).
Proof.
  unfold heeded_answers. induction 1; cbn [heeded filter refused negb combine map snd fst]; try assumption; first [solve [econstructor; eassumption]|apply RepliesRefused; assumption].
Qed.
Theorem C70_objections_leave_no_trace cfg fuel cfg' fuel' notes answers others c d :
  fair cfg -> dbg cfg = true -> fair cfg' -> dbg cfg' = true ->
  written (c_snap context0) (map fst (names_of built_in_words)) [] notes -> tidy notes = true ->
  run_session cfg fuel (map line notes) context0 = Ok (answers, c) -> Forall2 silent notes answers ->
  run_session cfg' fuel' (map line (heeded notes)) context0 = Ok (others, d) -> Forall2 silent (heeded notes) others ->
  others = heeded_answers notes answers.
Proof.
  intros F D F' D' W T E SI E' SI'. pose proof (heeded_written _ _ _ _ W) as W'. pose proof (heeded_tidy _ T) as T'.
  pose proof (C63_new_interpreters_take_notes cfg fuel _ _ c F D W E SI) as H. pose proof (C63_new_interpreters_take_notes cfg' fuel' _ _ d F' D' W' E' SI') as H'.
  rewrite T in H. rewrite T' in H'. apply heeded_replies in H.
  refine (C63_answers_are_determined _ _ _ _ _ _ _ W' T' H' H). intros x y z [].
Qed.
Print Assumptions C70_objections_leave_no_trace.

(** To declare that a word reduces to itself is to forget what it reduces to: all answers are the same if `forget` is
    said instead. *)
Definition shortened (n : note) : note := match n with Drop _ w => Drop true w | n => n end.
Lemma shortened_written s W B ns : written s W B ns -> written s W B (map shortened ns).
Proof. induction 1; cbn [map shortened]; try (econstructor; eassumption). econstructor; [eassumption|eassumption|discriminate|assumption]. Qed.
Lemma shortened_tidy ns : tidy ns = true -> tidy (map shortened ns) = true.
Proof. unfold tidy. rewrite !forallb_forall. intros H n J. apply in_map_iff in J. destruct J as (m & <- & J). apply H in J. destruct m; exact J. Qed.
Lemma shortened_replies td B ns answers : replies td B ns answers -> replies td B (map shortened ns) answers.
Proof. induction 1; cbn [map shortened]; first [solve [econstructor; eassumption]|apply RepliesRefused; assumption]. Qed.
Theorem C70_two_ways_to_forget cfg fuel cfg' fuel' notes answers others c d :
  fair cfg -> dbg cfg = true -> fair cfg' -> dbg cfg' = true ->
  written (c_snap context0) (map fst (names_of built_in_words)) [] notes -> tidy notes = true ->
  run_session cfg fuel (map line notes) context0 = Ok (answers, c) -> Forall2 silent notes answers ->
  run_session cfg' fuel' (map line (map shortened notes)) context0 = Ok (others, d) -> Forall2 silent (map shortened notes) others ->
  others = answers.
Proof.
  intros F D F' D' W T E SI E' SI'. pose proof (shortened_written _ _ _ _ W) as W'. pose proof (shortened_tidy _ T) as T'.
  pose proof (C63_new_interpreters_take_notes cfg fuel _ _ c F D W E SI) as H. pose proof (C63_new_interpreters_take_notes cfg' fuel' _ _ d F' D' W' E' SI') as H'.
  rewrite T in H. rewrite T' in H'. apply shortened_replies in H.
  refine (C63_answers_are_determined _ _ _ _ _ _ _ W' T' H' H). intros x y z [].
Qed.
Print Assumptions C70_two_ways_to_forget.

(** ** A session with a new interpreter *)
Definition quarrel : list note :=
  (pets ++ [Object (txt "tom") (txt "dog"); Object (txt "animal") (txt "tom"); Ask (txt "tom"); Idle (txt "animal"); Object (txt "animal") (txt "animal"); Ask (txt "dog"); Drop false (txt "tom"); Accept (txt "tom") (txt "animal"); Ask (txt "tom"); Drop true (txt "tom"); Ask (txt "tom")])%list.
Definition quarrel_answers : list text :=
  map txt [""; ""; ""; "tom already reduces to cat"; "Cannot allow a chain of reduction rules to loop."; "animal"; "That reduction rule for animal already exists.";
    "That reduction rule for animal already exists."; "animal"; ""; ""; "animal"; ""; "tom"].
Lemma quarrel_lines : map line (quarrel ++ [Object (txt "cat") (txt "dog")]) =
  map txt ["let (tom (-> cat))"; "let (cat (-> animal))"; "let (dog (-> animal))"; "let (tom (-> dog))"; "let (animal (-> tom))"; "tom"; "forget animal";
    "let (animal (-> animal))"; "dog"; "let (tom (-> tom))"; "let (tom (-> animal))"; "tom"; "forget tom"; "tom"; "let (cat (-> dog))"].
Proof. reflexivity. Qed.
Lemma quarrel_objection : objection (declared [] quarrel) (txt "cat") (txt "dog") (txt "cat already reduces to animal").
Proof. apply (ObjectionKept (declared [] quarrel) (txt "cat") (txt "dog") (txt "animal")); [cbn; tauto|discriminate]. Qed.
Lemma quarrel_written : written (c_snap context0) (map fst (names_of built_in_words)) [] (quarrel ++ [Object (txt "cat") (txt "dog")]).
Proof.
  pose proof pets_words as H. revert H. generalize (c_snap context0). intros s H. do 7 (apply andb_prop in H; destruct H as [H ?]).
  assert (NEW : forall W w, plain_word_b w = true -> unknown_b s w = true -> usable s W w).
  { intros W w P U. destruct (plain_word_ok w P). split; [assumption|]. split; [assumption|]. right. exact (unknown_ok _ _ U). }
  assert (OLD : forall W w, plain_word_b w = true -> In w W -> usable s W w).
  { intros W w P U. destruct (plain_word_ok w P). split; [assumption|]. split; [assumption|]. left. exact U. }
  assert (NR : forall w, In w (map txt ["tom"; "cat"; "animal"; "dog"]) -> ~ In w reserved).
  { intros w J R. cbn in J, R. decompose [or False] J; subst; decompose [or False] R; discriminate. }
  unfold quarrel. cbn [app pets].
  apply WrittenTell; [apply NEW; assumption|apply NEW; assumption|intros u []|].
  apply WrittenTell; [apply OLD; [assumption|right; left; reflexivity]|apply NEW; assumption|intros u [E|[]]; discriminate|].
  apply WrittenTell; [apply NEW; assumption|apply OLD; [assumption|right; left; reflexivity]|intros u [E|[E|[]]]; discriminate|].
  match goal with |- written _ (?a :: ?b :: ?c :: ?d :: ?e :: ?f :: ?W) _ _ => generalize W end. intros W.
  change [(txt "dog", txt "animal"); (txt "cat", txt "animal"); (txt "tom", txt "cat")] with (declared [] pets).
  set (W' := txt "dog" :: txt "animal" :: txt "cat" :: txt "animal" :: txt "tom" :: txt "cat" :: W).
  assert (CA : forall w, In w (map txt ["tom"; "cat"; "animal"; "dog"]) -> common (declared [] pets) w).
  { intros w J. apply common_all; [|exact (NR _ J)]. intros u v K. apply NR. cbn in K. decompose [or False] K; try contradiction;
      match goal with X : _ = _ |- _ => injection X as _ <- end; cbn; tauto. }
  assert (IW : forall w, In w (map txt ["tom"; "cat"; "animal"; "dog"]) -> In w W').
  { intros w J. cbn in J. unfold W'. cbn [In]. decompose [or False] J; subst; tauto. }
  assert (NA : forall u, ~ In (txt "animal", u) (declared [] pets)) by (intros u J; cbn in J; decompose [or False] J; discriminate).
  assert (OB : forall w v a ns, In w (map txt ["tom"; "cat"; "animal"; "dog"]) -> In v (map txt ["tom"; "cat"; "animal"; "dog"]) -> objection (declared [] pets) w v a ->
    written s W' (declared [] pets) ns -> written s W' (declared [] pets) (Object w v :: ns)).
  { intros w v a ns Jw Jv Ob Wr. exact (WrittenObject _ _ _ w v a ns (IW _ Jw) (IW _ Jv) (CA _ Jw) Ob Wr). }
  eapply OB; [cbn; tauto|cbn; tauto|apply (ObjectionKept _ _ _ (txt "cat")); [cbn; tauto|discriminate]|].
  eapply OB; [cbn; tauto|cbn; tauto|apply ObjectionLoop; [exact NA|apply pets_lead; cbn; tauto|discriminate]|].
  apply WrittenAsk; [apply IW; cbn; tauto|]. apply WrittenIdle; [apply IW; cbn; tauto|exact NA|].
  eapply OB; [cbn; tauto|cbn; tauto|apply ObjectionSame; exact NA|].
  apply WrittenAsk; [apply IW; cbn; tauto|]. apply (WrittenDrop _ _ _ _ _ (txt "cat")); [apply IW; cbn; tauto|cbn; tauto|intros _; apply CA; cbn; tauto|].
  change (without (txt "tom") (declared [] pets)) with [(txt "dog", txt "animal"); (txt "cat", txt "animal")].
  assert (CO : forall B w, Forall (fun p => In (snd p) (map txt ["tom"; "cat"; "animal"; "dog"])) B -> In w (map txt ["tom"; "cat"; "animal"; "dog"]) -> common B w).
  { intros B w A J. apply common_all; [|exact (NR _ J)]. intros u v K. rewrite Forall_forall in A. exact (NR _ (A _ K)). }
  apply WrittenAccept; [apply IW; cbn; tauto|apply IW; cbn; tauto|apply CO; [repeat (apply Forall_cons; [cbn; tauto|]); apply Forall_nil|cbn; tauto]| | |].
  { intros u J. cbn in J. decompose [or False] J; discriminate. }
  { intros L. inversion L as [x N|x y z J _]; subst. cbn in J. decompose [or False] J; discriminate. }
  apply WrittenAsk; [left; reflexivity|].
  apply (WrittenDrop _ _ _ _ _ (txt "animal")); [left; reflexivity|left; reflexivity|discriminate|].
  apply WrittenAsk; [left; reflexivity|].
  eapply WrittenObject; [right; right; apply IW; cbn; tauto|right; right; apply IW; cbn; tauto|apply CO; [repeat (apply Forall_cons; [cbn; tauto|]); apply Forall_nil|cbn; tauto]|exact quarrel_objection|constructor].
Qed.
Lemma quarrel_answered : texts_b (run_session cfg0 fuel0 (map line (quarrel ++ [Object (txt "cat") (txt "dog")])) context0)
  (quarrel_answers ++ [txt "cat already reduces to animal"])%list = true.
Proof. vm_compute. reflexivity. Qed.
Lemma quarrel_silent : Forall2 silent quarrel quarrel_answers.
Proof. unfold quarrel, quarrel_answers. cbn [app pets map]. repeat (apply Forall2_cons; [first [reflexivity|exact I]|]). apply Forall2_nil. Qed.
Example C70_example : exists c', fair cfg0 /\
  written (c_snap context0) (map fst (names_of built_in_words)) [] (quarrel ++ [Object (txt "cat") (txt "dog")]) /\
  run_session cfg0 fuel0 (map line (quarrel ++ [Object (txt "cat") (txt "dog")])) context0 = Ok (quarrel_answers ++ [txt "cat already reduces to animal"], c')%list /\
  Forall2 silent quarrel quarrel_answers /\ objection (declared [] quarrel) (txt "cat") (txt "dog") (txt "cat already reduces to animal").
Proof.
  destruct (texts_ok _ _ quarrel_answered) as (c' & E). exists c'. split; [exact fair0|]. split; [exact quarrel_written|]. split; [exact E|].
  split; [exact quarrel_silent|exact quarrel_objection].
Qed.
(** The hypotheses of the first two theorems are met by a new interpreter that is told nothing. *)
Lemma assoc_answered : texts_b (run_session cfg0 fuel0 (map txt ["let (assoc (-> assoc))"; "forget assoc"]) context0)
  (map txt ["That reduction rule for assoc already exists."; "That reduction rule for assoc already exists."]) = true.
Proof. vm_compute. reflexivity. Qed.
Example C70_single_example : exists c', fair cfg0 /\ reachable_with true (links_safe true) context0 /\ c_cache context0 = empty_cache /\
  notebook (c_snap context0) (names_of built_in_words) [] /\ inquiry (c_snap context0) (names_of built_in_words) /\ phrasing (c_snap context0) (names_of built_in_words) /\
  ending (map fst (names_of built_in_words)) [] /\ In (txt "assoc") (map fst (names_of built_in_words)) /\ common [] (txt "assoc") /\
  execute cfg0 fuel0 (txt "let (" ++ txt "assoc" ++ txt " (-> " ++ txt "assoc" ++ txt "))")%list context0 = Ok (txt "That reduction rule for assoc already exists.", c').
Proof.
  destruct (texts_ok _ _ assoc_answered) as (c2 & E). apply session_first in E. destruct E as (a & rs & c1 & X & E & _). injection X as <- _.
  exists c1. split; [exact fair0|]. split; [exact context0_linked|]. split; [reflexivity|]. split; [exact context0_notebook|]. split; [exact context0_inquiry|].
  split; [exact context0_phrasing|]. split; [exact (ending_empty _)|]. split; [cbn; tauto|]. split; [|exact E].
  intros z [<-|P] R; [cbn in R; decompose [or False] R; discriminate|]. inversion P as [x y J|x u y J _]; destruct J.
Qed.
(** What was declared is forgotten in a session of two commands. *)
Lemma tom_forgotten : texts_b (run_session cfg0 fuel0 (map txt ["let (tom (-> cat))"; "let (tom (-> tom))"]) context0) (map txt [""; ""]) = true.
Proof. vm_compute. reflexivity. Qed.
Example C70_forgetting_example : exists c V c', reachable_with true (links_safe true) c /\ c_cache c = empty_cache /\ notebook (c_snap c) V [(txt "tom", txt "cat")] /\
  inquiry (c_snap c) V /\ phrasing (c_snap c) V /\ ending (map fst V) [(txt "tom", txt "cat")] /\ In (txt "tom") (map fst V) /\ common [(txt "tom", txt "cat")] (txt "tom") /\
  execute cfg0 fuel0 (txt "let (" ++ txt "tom" ++ txt " (-> " ++ txt "tom" ++ txt "))")%list c = Ok ([], c').
Proof.
  destruct (texts_ok _ _ tom_forgotten) as (c2 & E). apply session_first in E. destruct E as (a & rs & c1 & X & E & E').
  assert (a = [] /\ rs = [[]]) as [-> ->] by (injection X as <- <-; split; reflexivity). clear X.
  apply session_first in E'. destruct E' as (a & rs & c3 & X & E' & _). assert (a = []) as -> by (injection X as <- <-; reflexivity).
  assert (U : forall w, In w (map txt ["tom"; "cat"]) -> usable (c_snap context0) (map fst (names_of built_in_words)) w).
  { pose proof pets_words as H. revert H. generalize (c_snap context0). intros s H. do 7 (apply andb_prop in H; destruct H as [H ?]).
    intros w [<-|[<-|[]]]; (split; [apply plain_word_ok; assumption|split; [apply plain_word_ok; assumption|right; apply unknown_ok; assumption]]). }
  destruct (told_next cfg0 fuel0 fair0 eq_refl context0 c1 (names_of built_in_words) [] (txt "tom") (txt "cat") context0_linked context0_notebook) as (R1 & K1 & _ & NZ & x & y & NB1 & Q1 & Q2 & _);
    [apply U; cbn; tauto|apply U; cbn; tauto|intros u []|exact E|].
  exists c1, ((txt "tom", x) :: (txt "cat", y) :: names_of built_in_words), c3.
  split; [exact R1|]. split; [exact K1|]. split; [exact NB1|]. split; [exact (Q1 context0_inquiry)|]. split; [exact (Q2 context0_phrasing)|].
  split; [apply (ending_told [] (txt "tom") (txt "cat") (txt "cat") _ (ending_empty _)); [apply LeadsHere; intros v []|discriminate]|].
  split; [left; reflexivity|]. split; [|exact E'].
  apply common_all; [|intros R; cbn in R; decompose [or False] R; discriminate].
  intros u v [J|[]]. injection J as _ <-. intros R; cbn in R; decompose [or False] R; discriminate.
Qed.
