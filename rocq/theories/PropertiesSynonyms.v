(** C75: words that end alike are interchangeable in questions.  C76: answers are answered with themselves. *)
From Verif Require Import Start Lexer LexerSpec Snapshot Search Context StoreSpec NameSpec StoreInv StoreFacts MapFacts AstFacts History Steps Keep Sim Meaning Settled Links CacheLife Displays Sample Witness NameWitness
  Spelled Asking Unruled Answers Replies Checks Phrases Groups Flat Outlines Notebook Notes PropertiesAnswers PropertiesWords PropertiesUttered PropertiesNotebook PropertiesChecks PropertiesPast.
From Coq Require Import String List Relations PeanoNat Bool Lia.
Import ListNotations.
Local Open Scope string_scope.

(** ** Specification *)
(** The chains of the two words end with the same word. *)
Definition meet (B : list (text * text)) (w w' : text) : Prop := exists z, leads_to B w z /\ leads_to B w' z.
(** The line is the sequence of the words [ws], with or without brackets. *)
Inductive sequence : note -> list text -> Prop :=
| SequenceBrackets ws : sequence (Phrase ws) ws
| SequencePlain ws : sequence (PlainPhrase ws) ws.
(** The same is asked, in other words and with or without brackets.  (The questions `Doubt` are those about words
    whose chains end differently.) *)
Inductive paraphrase (B : list (text * text)) : note -> note -> Prop :=
| ParaphraseAsk w w' : meet B w w' -> paraphrase B (Ask w) (Ask w')
| ParaphraseSequence n n' ws ws' : sequence n ws -> sequence n' ws' -> Forall2 (meet B) ws ws' -> paraphrase B n n'
| ParaphraseDoubt pl pl' w w' v v' : meet B w w' -> meet B v v' -> paraphrase B (Doubt pl w v) (Doubt pl' w' v').
(** Expressions made of words, with any brackets. *)
Inductive wording : note -> list text -> Prop :=
| WordingSequence n ws : sequence n ws -> wording n ws
| WordingGroup p : wording (Group p) (words_of p).
(** A question that is answered with words: about a word or a sequence of words, or about two words whose chains end
    differently. *)
Definition verbal (n : note) : Prop := match n with Ask _ | Phrase _ | PlainPhrase _ | Doubt _ _ _ => True | _ => False end.

(** ** Lemmas *)
Lemma meet_once B w w' z z' : single B -> meet B w w' -> leads_to B w z -> leads_to B w' z' -> z = z'.
Proof.
  intros S (y & L & L') H H'. rewrite (leads_to_one _ _ _ _ S H L). exact (leads_to_one _ _ _ _ S L' H').
Qed.
Lemma meet_all B ws ws' : single B -> Forall2 (meet B) ws ws' -> forall vs vs', Forall2 (leads_to B) ws vs -> Forall2 (leads_to B) ws' vs' -> vs = vs'.
Proof.
  intros S. induction 1 as [|w w' ws ws' M _ IH]; intros vs vs' H H'; inversion H; inversion H'; subst; [reflexivity|].
  f_equal; [eapply meet_once; eassumption|apply IH; assumption].
Qed.
Lemma replies_last td B ns answers n a : List.length answers = List.length ns -> replies td B (ns ++ [n]) (answers ++ [a])%list -> replies td (declared B ns) [n] [a].
Proof. intros L H. exact (replies_rest td ns [n] B answers [a] L H). Qed.
Lemma Forall2_len {A B} (R : A -> B -> Prop) l l' : Forall2 R l l' -> List.length l = List.length l'.
Proof. induction 1; cbn; congruence. Qed.
Lemma silent_length ns n answers a : Forall2 silent (ns ++ [n]) (answers ++ [a])%list -> List.length answers = List.length ns.
Proof. intros H. apply Forall2_len in H. rewrite !app_length in H. cbn in H. lia. Qed.
Lemma sequence_replied td B n ws a : sequence n ws -> replies td B [n] [a] -> exists vs, Forall2 (leads_to B) ws vs /\ (if td then a else bare a) = joined vs.
Proof. intros [us|us] H; inversion H; subst; eauto. Qed.
Lemma paraphrase_replied B n n' a a' : single B -> paraphrase B n n' -> replies true B [n] [a] -> replies true B [n'] [a'] -> a = a'.
Proof.
  intros S [w w' M|m m' ws ws' Q Q' M|pl pl' w w' v v' M M'] H H'.
  - inversion H; inversion H'; subst. eapply meet_once; eassumption.
  - destruct (sequence_replied _ _ _ _ _ Q H) as (vs & A & ->). destruct (sequence_replied _ _ _ _ _ Q' H') as (vs' & A' & ->).
    f_equal. exact (meet_all _ _ _ S M _ _ A A').
  - inversion H; inversion H'; subst.
    match goal with X : leads_to B w ?x, X' : leads_to B w' ?x', Y : leads_to B v ?y, Y' : leads_to B v' ?y' |- _ =>
      rewrite (meet_once _ _ _ _ _ S M X X'), (meet_once _ _ _ _ _ S M' Y Y') end.
    reflexivity.
Qed.
Lemma wording_replied td B n ws a : wording n ws -> replies td B [n] [a] -> exists vs, Forall2 (leads_to B) ws vs /\ (a = joined vs \/ bare a = joined vs).
Proof.
  intros [m us Q|p] H.
  - destruct (sequence_replied _ _ _ _ _ Q H) as (vs & A & E). exists vs. split; [exact A|]. destruct td; [left|right]; exact E.
  - inversion H; subst. eauto.
Qed.
Lemma replies_alone td cfg fuel past n before a c : fair cfg -> dbg cfg = true ->
  written (c_snap context0) (map fst (names_of built_in_words)) [] (past ++ [n]) -> tidy (past ++ [n]) = td ->
  run_session cfg fuel (map line (past ++ [n])) context0 = Ok (before ++ [a], c)%list -> Forall2 silent (past ++ [n]) (before ++ [a])%list ->
  replies td (declared [] past) [n] [a] /\ single (declared [] past).
Proof.
  intros F D W T E SI. pose proof (C63_new_interpreters_take_notes cfg fuel _ _ c F D W E SI) as H. rewrite T in H.
  split; [exact (replies_last _ _ _ _ _ _ (silent_length _ _ _ _ SI) H)|].
  refine (declared_single _ _ _ _ _ (written_before _ _ _ _ _ W)). intros x y z [].
Qed.

(** The words of what is declared are known, and all known words are words. *)
Definition closed_under (W : list text) (B : list (text * text)) : Prop := forall w v, In (w, v) B -> In w W /\ In v W.
Lemma known_closed s ns : forall W B, closed_under W B -> Forall word W -> written s W B ns ->
  closed_under (words_known W ns) (declared B ns) /\ Forall word (words_known W ns).
Proof.
  induction ns as [|n ns IH]; intros W B C Q H; [split; [exact C|exact Q]|].
  assert (C1 : forall w v, closed_under (w :: v :: W) ((w, v) :: B)).
  { intros w v x y [[= <- <-]|J]; [cbn; tauto|]. destruct (C _ _ J). split; do 2 right; assumption. }
  assert (C2 : forall w, closed_under W (without w B)) by (intros w x y J; apply without_spec in J; exact (C _ _ (proj1 J))).
  assert (Q1 : forall w, In w W -> word w) by (apply Forall_forall, Q).
  assert (Q2 : forall w, usable s W w -> word w) by (intros w [X _]; exact X).
  inversion H; subst; cbn [words_known declared]; apply (fun C Q => IH _ _ C Q ltac:(eassumption)); auto.
Qed.
Lemma leads_known W B w z : closed_under W B -> leads_to B w z -> In w W -> In z W.
Proof. intros C. induction 1 as [w N|w v z J _ IH]; intros Jw; [exact Jw|]. apply IH. exact (proj2 (C _ _ J)). Qed.
Lemma leads_stops B w z : leads_to B w z -> forall v, ~ In (z, v) B.
Proof. induction 1 as [w N|w v z J _ IH]; assumption. Qed.
Lemma leads_final B w z : leads_to B w z -> leads_to B z z.
Proof. intros L. apply LeadsHere, (leads_stops _ _ _ L). Qed.
Lemma leads_passes B w z : leads_to B w z -> w = z \/ passes B w z.
Proof.
  induction 1 as [w N|w v z J _ [<-|IH]]; [now left|right; apply PassesNext, J|right; exact (PassesOn B w v z J IH)].
Qed.
Lemma final_common B w z : common B w -> leads_to B w z -> common B z.
Proof.
  intros C L x [<-|P]; [exact (C z (leads_passes _ _ _ L))|]. inversion P; subst; destruct (leads_stops _ _ _ L _ ltac:(eassumption)).
Qed.
Lemma built_in_texts : Forall word (map fst (names_of built_in_words)).
Proof.
  apply Forall_forall. intros w J. apply in_map_iff in J. destruct J as ([x k] & <- & J).
  destruct (nb_symbol _ _ _ context0_notebook _ _ J) as ((Q & _) & _). exact Q.
Qed.
Lemma bare_joined ws : Forall word ws -> bare (joined ws) = joined ws.
Proof.
  induction 1 as [|w ws Q _ IH]; [reflexivity|]. destruct ws as [|v ws]; [exact (bare_word w Q)|].
  change (joined (w :: v :: ws)) with (w ++ [c_space] ++ joined (v :: ws))%list. rewrite !bare_app, IH, (bare_word w Q). reflexivity.
Qed.

Lemma Forall2_right {X Y} (R : X -> Y -> Prop) l l' : Forall2 R l l' -> forall y, In y l' -> exists x, In x l /\ R x y.
Proof.
  induction 1 as [|x y l l' H _ IH]; intros z J; [destruct J|]. destruct J as [<-|J]; [exists x; split; [now left|exact H]|].
  destruct (IH _ J) as (u & Ju & Hu). exists u. split; [now right|exact Hu].
Qed.
Lemma wording_known s W B n ws : wording n ws -> written s W B [n] -> forall w, In w ws -> In w W.
Proof.
  intros [m us Q|p] H w J; [destruct Q|]; inversion H; subst;
    match goal with X : Forall _ _ |- _ => rewrite Forall_forall in X; exact (proj1 (X _ J)) end.
Qed.
Lemma written_joined s ns ms : forall W B, written s W B ns -> written s (words_known W ns) (declared B ns) ms -> written s W B (ns ++ ms).
Proof.
  induction ns as [|n ns IH]; intros W B H K; [exact K|]. cbn [app]. inversion H; subst; cbn [words_known declared] in K; econstructor; eauto.
Qed.
Lemma alike_passes B B' w z : alike B B' -> passes B w z -> passes B' w z.
Proof. intros A. induction 1 as [w v J|w u v J _ IH]; [apply PassesNext, A, J|eapply PassesOn; [apply A, J|exact IH]]. Qed.
Lemma alike_common B B' w : alike B B' -> common B w -> common B' w.
Proof. intros A C z [E|P]; apply C; [now left|right; exact (alike_passes _ _ _ _ (alike_sym _ _ A) P)]. Qed.
(** What a sequence of words was answered with can be asked. *)
Lemma ends_askable W B ws vs : closed_under W B -> Forall2 (leads_to B) ws vs -> Forall (fun w => In w W /\ common B w) ws ->
  List.length vs = List.length ws /\ Forall (fun v => In v W /\ common B v) vs /\ Forall2 (leads_to B) vs vs.
Proof.
  intros C. induction 1 as [|w v ws vs L _ IH]; intros Q; [repeat constructor|]. inversion Q as [|x l [J K] Q']; subst.
  destruct (IH Q') as (E & Q1 & Q2). split; [cbn; congruence|]. split; constructor; [|exact Q1|exact (leads_final _ _ _ L)|exact Q2].
  split; [exact (leads_known _ _ _ _ C L J)|exact (final_common _ _ _ K L)].
Qed.
Lemma askable_there W B W' B' vs : incl W W' -> alike B B' -> Forall (fun v => In v W /\ common B v) vs -> Forall (fun v => In v W' /\ common B' v) vs.
Proof. intros I A. apply Forall_impl. intros v [J C]. split; [exact (I _ J)|exact (alike_common _ _ _ A C)]. Qed.
Lemma verbal_again s W B n a : verbal n -> single B -> closed_under W B -> written s W B [n] -> replies true B [n] [a] ->
  exists m, line m = a /\ (tidy [m] = true /\ forall b, silent m b) /\
    (forall W' B', incl W W' -> alike B B' -> written s W' B' [m]) /\ (forall b, replies true B [m] [b] -> b = a).
Proof.
  intros V S C WR H. destruct n; try destruct V; inversion WR; subst; inversion H; subst.
  - match goal with L : leads_to B ?w ?z |- _ => exists (Ask z); split; [reflexivity|]; split; [split; [reflexivity|intros b; exact I]|]; split end.
    + intros W' B' K A. apply WrittenAsk; [apply K; eapply leads_known; eassumption|constructor].
    + intros b R. inversion R; subst. symmetry. eapply leads_to_one; [exact S|eapply leads_final; eassumption|eassumption].
  - match goal with L : Forall2 _ ws ?vs |- _ => exists (PlainPhrase vs); destruct (ends_askable W B ws vs C L ltac:(assumption)) as (E & Q1 & Q2) end.
    split; [reflexivity|]. split; [split; [reflexivity|intros b; exact I]|]. split.
    + intros W' B' K A. apply WrittenPlainPhrase; [rewrite E; assumption|exact (askable_there _ _ _ _ _ K A Q1)|constructor].
    + intros b R. inversion R; subst. f_equal. eapply all_lead_once; eassumption.
  - match goal with L : Forall2 _ ws ?vs |- _ => exists (PlainPhrase vs); destruct (ends_askable W B ws vs C L ltac:(assumption)) as (E & Q1 & Q2) end.
    split; [reflexivity|]. split; [split; [reflexivity|intros b; exact I]|]. split.
    + intros W' B' K A. apply WrittenPlainPhrase; [rewrite E; assumption|exact (askable_there _ _ _ _ _ K A Q1)|constructor].
    + intros b R. inversion R; subst. f_equal. eapply all_lead_once; eassumption.
  - match goal with X : leads_to B w ?z, X' : leads_to B v ?z', Y : leads_to B w ?y, Y' : leads_to B v ?y', N : ?z <> ?z' |- _ =>
      pose proof (leads_to_one _ _ _ _ S X Y) as <-; pose proof (leads_to_one _ _ _ _ S X' Y') as <-;
      pose proof (leads_final _ _ _ X) as FX; pose proof (leads_final _ _ _ X') as FX';
      pose proof (leads_known _ _ _ _ C X ltac:(assumption)) as KX; pose proof (leads_known _ _ _ _ C X' ltac:(assumption)) as KX';
      exists (Doubt true z z'); split; [reflexivity|]; split; [split; [reflexivity|intros b; exact I]|]; split end.
    + intros W' B' K A. eapply WrittenDoubt; [apply K, KX|apply K, KX'|exact (alike_leads _ _ _ _ A FX)|exact (alike_leads _ _ _ _ A FX')|assumption|assumption|assumption|intros _; split; assumption|constructor].
    + intros b R. inversion R; subst.
      match type of FX with leads_to _ ?x _ => match type of FX' with leads_to _ ?y _ =>
        match goal with R1 : leads_to B x ?p, R2 : leads_to B y ?q |- _ =>
          pose proof (leads_to_one _ _ _ _ S FX R1) as G1; pose proof (leads_to_one _ _ _ _ S FX' R2) as G2; revert G1 G2; try (intros <- <-; reflexivity); intros G1 G2; solve [subst p q; reflexivity|rewrite <- G1, <- G2; reflexivity] end end end.
Qed.

(** ** C75 *)
(** In two sessions with new interpreters in which the same declarations stand at the end, the same question is
    asked in other words: words are replaced by others whose chains end alike, such as by what they were declared
    to reduce to, and brackets around sequences are written or left out.  Then the answer is the same. *)
Theorem C75_paraphrases_have_the_same_answer cfg fuel cfg' fuel' past past' n n' before before' a a' c d :
  fair cfg -> dbg cfg = true -> fair cfg' -> dbg cfg' = true ->
  written (c_snap context0) (map fst (names_of built_in_words)) [] (past ++ [n]) -> tidy (past ++ [n]) = true ->
  written (c_snap context0) (map fst (names_of built_in_words)) [] (past' ++ [n']) -> tidy (past' ++ [n']) = true ->
  alike (declared [] past) (declared [] past') -> paraphrase (declared [] past) n n' ->
  run_session cfg fuel (map line (past ++ [n])) context0 = Ok (before ++ [a], c)%list -> Forall2 silent (past ++ [n]) (before ++ [a])%list ->
  run_session cfg' fuel' (map line (past' ++ [n'])) context0 = Ok (before' ++ [a'], d)%list -> Forall2 silent (past' ++ [n']) (before' ++ [a'])%list ->
  a = a'.
Proof.
  intros F D F' D' W T W' T' A P E SI E' SI'.
  destruct (replies_alone true cfg fuel _ _ _ _ c F D W T E SI) as [H S]. destruct (replies_alone true cfg' fuel' _ _ _ _ d F' D' W' T' E' SI') as [H' _].
  apply alike_replies with (B' := declared [] past) in H'; [|apply alike_sym, A]. exact (paraphrase_replied _ _ _ _ _ S P H H').
Qed.
Print Assumptions C75_paraphrases_have_the_same_answer.

(** With any brackets, and in sessions that have such expressions, the answers have the same words. *)
Theorem C75_up_to_brackets cfg fuel cfg' fuel' past past' n n' ws ws' before before' a a' c d :
  fair cfg -> dbg cfg = true -> fair cfg' -> dbg cfg' = true ->
  written (c_snap context0) (map fst (names_of built_in_words)) [] (past ++ [n]) ->
  written (c_snap context0) (map fst (names_of built_in_words)) [] (past' ++ [n']) ->
  alike (declared [] past) (declared [] past') -> wording n ws -> wording n' ws' -> Forall2 (meet (declared [] past)) ws ws' ->
  run_session cfg fuel (map line (past ++ [n])) context0 = Ok (before ++ [a], c)%list -> Forall2 silent (past ++ [n]) (before ++ [a])%list ->
  run_session cfg' fuel' (map line (past' ++ [n'])) context0 = Ok (before' ++ [a'], d)%list -> Forall2 silent (past' ++ [n']) (before' ++ [a'])%list ->
  bare a = bare a'.
Proof.
  intros F D F' D' W W' A Q Q' M E SI E' SI'.
  destruct (replies_alone _ cfg fuel _ _ _ _ c F D W eq_refl E SI) as [H S]. destruct (replies_alone _ cfg' fuel' _ _ _ _ d F' D' W' eq_refl E' SI') as [H' _].
  apply alike_replies with (B' := declared [] past) in H'; [|apply alike_sym, A].
  destruct (wording_replied _ _ _ _ _ Q H) as (vs & L & X). destruct (wording_replied _ _ _ _ _ Q' H') as (vs' & L' & X').
  pose proof (meet_all _ _ _ S M _ _ L L') as <-.
  assert (KW : Forall word vs).
  { destruct (known_closed _ _ _ _ (fun w v (J : In (w, v) []) => match J with end) built_in_texts (written_before _ _ _ _ _ W)) as [C KQ].
    pose proof (wording_known _ _ _ _ _ Q (written_rest _ _ _ _ _ W)) as KN. apply Forall_forall. intros v J.
    destruct (Forall2_right _ _ _ L _ J) as (w & Jw & Lw). rewrite Forall_forall in KQ. apply KQ. exact (leads_known _ _ _ _ C Lw (KN _ Jw)). }
  pose proof (bare_joined _ KW) as BJ. destruct X as [->| ->], X' as [->| ->]; congruence.
Qed.
Print Assumptions C75_up_to_brackets.

(** ** C76 *)
(** If an answer to such a question is itself typed in, in a session with a new interpreter in which the same
    declarations stand and at least the same words are known, then it is answered with itself. *)
Theorem C76_answers_are_answered_with_themselves cfg fuel cfg' fuel' past past' n before before' a b c d :
  fair cfg -> dbg cfg = true -> fair cfg' -> dbg cfg' = true ->
  written (c_snap context0) (map fst (names_of built_in_words)) [] (past ++ [n]) -> tidy (past ++ [n]) = true ->
  written (c_snap context0) (map fst (names_of built_in_words)) [] past' -> tidy past' = true ->
  alike (declared [] past) (declared [] past') ->
  incl (words_known (map fst (names_of built_in_words)) past) (words_known (map fst (names_of built_in_words)) past') -> verbal n ->
  run_session cfg fuel (map line (past ++ [n])) context0 = Ok (before ++ [a], c)%list -> Forall2 silent (past ++ [n]) (before ++ [a])%list ->
  run_session cfg' fuel' (map line past' ++ [a]) context0 = Ok (before' ++ [b], d)%list -> Forall2 silent past' before' ->
  b = a.
Proof.
  intros F D F' D' W T W' T' A K V E SI E' SI'.
  destruct (replies_alone _ cfg fuel _ _ _ _ c F D W T E SI) as [H S].
  destruct (known_closed _ _ _ _ (fun w v (J : In (w, v) []) => match J with end) built_in_texts (written_before _ _ _ _ _ W)) as [C _].
  destruct (verbal_again _ _ _ _ _ V S C (written_rest _ _ _ _ _ W) H) as (m & LM & TM & WM & RM).
  assert (W2 : written (c_snap context0) (map fst (names_of built_in_words)) [] (past' ++ [m])).
  { apply written_joined; [exact W'|]. apply (WM _ _ K A). }
  assert (SI2 : Forall2 silent (past' ++ [m]) (before' ++ [b])%list).
  { apply Forall2_app; [exact SI'|]. constructor; [|constructor]. apply TM. }
  assert (T2 : tidy (past' ++ [m]) = true) by (unfold tidy in *; rewrite forallb_app, T', (proj1 TM); reflexivity).
  assert (E2 : run_session cfg' fuel' (map line (past' ++ [m])) context0 = Ok (before' ++ [b], d)%list) by (rewrite map_app; cbn [map]; rewrite LM; exact E').
  destruct (replies_alone _ cfg' fuel' _ _ _ _ d F' D' W2 T2 E2 SI2) as [H2 _].
  apply alike_replies with (B' := declared [] past) in H2; [|apply alike_sym, A].
  exact (RM _ H2).
Qed.
Print Assumptions C76_answers_are_answered_with_themselves.

(** ** Sessions with new interpreters *)
Definition told_garden : list text := map txt [""; ""; ""; ""; "animal"].
Definition of_three (x y z : string) : list text := map txt [x; y; z].
Definition three_in_brackets : phrase := Both (Both (Word (txt "tom")) (Word (txt "oak"))) (Word (txt "dog")).
Lemma three_lines : map line [Phrase (of_three "tom" "oak" "dog"); PlainPhrase (of_three "cat" "tree" "animal"); Group three_in_brackets] =
  map txt ["tom (oak dog)"; "cat tree animal"; "(tom oak) dog"].
Proof. reflexivity. Qed.
Lemma three_answered : texts_b (run_session cfg0 fuel0 (map line (garden ++ [Phrase (of_three "tom" "oak" "dog")])) context0) (told_garden ++ [txt "animal tree animal"])%list = true.
Proof. vm_compute. reflexivity. Qed.
Lemma plain_answered : texts_b (run_session cfg0 fuel0 (map line (garden ++ [PlainPhrase (of_three "cat" "tree" "animal")])) context0) (told_garden ++ [txt "animal tree animal"])%list = true.
Proof. vm_compute. reflexivity. Qed.
Lemma brackets_answered : texts_b (run_session cfg0 fuel0 (map line (garden ++ [Group three_in_brackets])) context0) (told_garden ++ [txt "(animal tree) animal"])%list = true.
Proof. vm_compute. reflexivity. Qed.
Lemma again_answered : texts_b (run_session cfg0 fuel0 (map line garden ++ [txt "animal tree animal"]) context0) (told_garden ++ [txt "animal tree animal"])%list = true.
Proof. vm_compute. reflexivity. Qed.
Lemma garden_chains : leads_to (declared [] garden) (txt "dog") (txt "animal") /\ leads_to (declared [] garden) (txt "animal") (txt "animal") /\ leads_to (declared [] garden) (txt "tree") (txt "tree").
Proof.
  assert (A : leads_to (declared [] garden) (txt "animal") (txt "animal")) by (apply LeadsHere; intros v J; cbn in J; decompose [or False] J; discriminate).
  split; [eapply LeadsOn; [|exact A]; cbn; tauto|]. split; [exact A|]. apply LeadsHere. intros v J. cbn in J. decompose [or False] J; discriminate.
Qed.
Lemma garden_common w : In w (map txt ["tom"; "cat"; "animal"; "dog"; "oak"; "tree"]) -> common (declared [] garden) w.
Proof.
  assert (K : forall w z, passes (declared [] garden) w z -> In z (map txt ["cat"; "animal"; "tree"])).
  { induction 1 as [x v J|x u v J _ IH]; [cbn in J; decompose [or False] J; match goal with E : (_, _) = _ |- _ => injection E as <- <- end; cbn; tauto|exact IH]. }
  assert (NR : forall w, In w (map txt ["tom"; "cat"; "animal"; "dog"; "oak"; "tree"]) -> ~ In w reserved).
  { intros x J R. cbn in J, R. decompose [or False] J; subst; decompose [or False] R; discriminate. }
  intros J z [<-|P]; apply NR; [exact J|]. apply K in P. cbn in *. tauto.
Qed.
Lemma garden_known ws : incl ws (map txt ["tom"; "cat"; "animal"; "dog"; "oak"; "tree"]) ->
  Forall (fun w => In w (words_known (map fst (names_of built_in_words)) garden) /\ common (declared [] garden) w) ws.
Proof.
  intros K. apply Forall_forall. intros w J. apply K in J. split; [|exact (garden_common w J)].
  generalize (map fst (names_of built_in_words)). intros W. cbn in J |- *. tauto.
Qed.
Lemma garden_then n : written (c_snap context0) (words_known (map fst (names_of built_in_words)) garden) (declared [] garden) [n] ->
  written (c_snap context0) (map fst (names_of built_in_words)) [] (garden ++ [n]).
Proof. intros H. apply written_joined; [exact (written_before _ _ _ _ _ garden_written)|exact H]. Qed.
Lemma three_written : written (c_snap context0) (map fst (names_of built_in_words)) [] (garden ++ [Phrase (of_three "tom" "oak" "dog")]) /\
  written (c_snap context0) (map fst (names_of built_in_words)) [] (garden ++ [PlainPhrase (of_three "cat" "tree" "animal")]) /\
  written (c_snap context0) (map fst (names_of built_in_words)) [] (garden ++ [Group three_in_brackets]).
Proof.
  split; [|split]; apply garden_then.
  - apply WrittenPhrase; [cbn; lia|apply garden_known; intros w J; cbn in *; tauto|constructor].
  - apply WrittenPlainPhrase; [cbn; lia|apply garden_known; intros w J; cbn in *; tauto|constructor].
  - apply WrittenGroup; [exact I|apply garden_known; intros w J; cbn in *; tauto|constructor].
Qed.
Lemma three_meet : Forall2 (meet (declared [] garden)) (of_three "tom" "oak" "dog") (of_three "cat" "tree" "animal").
Proof.
  destruct garden_leads as (Lt & Lc & Lo). destruct garden_chains as (Ld & La & Le).
  repeat constructor; [exists (txt "animal")|exists (txt "tree")|exists (txt "animal")]; split; assumption.
Qed.
(** `tom (oak dog)` and `cat tree animal` are both answered `animal tree animal`. *)
Example C75_example : exists c d, fair cfg0 /\
  written (c_snap context0) (map fst (names_of built_in_words)) [] (garden ++ [Phrase (of_three "tom" "oak" "dog")]) /\ tidy (garden ++ [Phrase (of_three "tom" "oak" "dog")]) = true /\
  written (c_snap context0) (map fst (names_of built_in_words)) [] (garden ++ [PlainPhrase (of_three "cat" "tree" "animal")]) /\ tidy (garden ++ [PlainPhrase (of_three "cat" "tree" "animal")]) = true /\
  paraphrase (declared [] garden) (Phrase (of_three "tom" "oak" "dog")) (PlainPhrase (of_three "cat" "tree" "animal")) /\
  run_session cfg0 fuel0 (map line (garden ++ [Phrase (of_three "tom" "oak" "dog")])) context0 = Ok (told_garden ++ [txt "animal tree animal"], c)%list /\
  Forall2 silent (garden ++ [Phrase (of_three "tom" "oak" "dog")]) (told_garden ++ [txt "animal tree animal"])%list /\
  run_session cfg0 fuel0 (map line (garden ++ [PlainPhrase (of_three "cat" "tree" "animal")])) context0 = Ok (told_garden ++ [txt "animal tree animal"], d)%list /\
  Forall2 silent (garden ++ [PlainPhrase (of_three "cat" "tree" "animal")]) (told_garden ++ [txt "animal tree animal"])%list.
Proof.
  destruct (texts_ok _ _ three_answered) as (c & E). destruct (texts_ok _ _ plain_answered) as (d & E'). exists c, d.
  split; [exact fair0|]. split; [|split; [reflexivity|split; [|split; [reflexivity|split; [|split; [exact E|split; [|split; [exact E'|]]]]]]]].
  - exact (proj1 three_written).
  - exact (proj1 (proj2 three_written)).
  - exact (ParaphraseSequence _ _ _ _ _ (SequenceBrackets _) (SequencePlain _) three_meet).
  - unfold garden, pets, told_garden. cbn [app map]. repeat (apply Forall2_cons; [first [reflexivity|exact I]|]). apply Forall2_nil.
  - unfold garden, pets, told_garden. cbn [app map]. repeat (apply Forall2_cons; [first [reflexivity|exact I]|]). apply Forall2_nil.
Qed.
(** `(tom oak) dog` is answered `(animal tree) animal`, and `cat tree animal` is answered `animal tree animal`. *)
Example C75_brackets_example : exists c d, fair cfg0 /\
  written (c_snap context0) (map fst (names_of built_in_words)) [] (garden ++ [Group three_in_brackets]) /\
  written (c_snap context0) (map fst (names_of built_in_words)) [] (garden ++ [PlainPhrase (of_three "cat" "tree" "animal")]) /\
  wording (Group three_in_brackets) (of_three "tom" "oak" "dog") /\ wording (PlainPhrase (of_three "cat" "tree" "animal")) (of_three "cat" "tree" "animal") /\
  Forall2 (meet (declared [] garden)) (of_three "tom" "oak" "dog") (of_three "cat" "tree" "animal") /\
  run_session cfg0 fuel0 (map line (garden ++ [Group three_in_brackets])) context0 = Ok (told_garden ++ [txt "(animal tree) animal"], c)%list /\
  Forall2 silent (garden ++ [Group three_in_brackets]) (told_garden ++ [txt "(animal tree) animal"])%list /\
  run_session cfg0 fuel0 (map line (garden ++ [PlainPhrase (of_three "cat" "tree" "animal")])) context0 = Ok (told_garden ++ [txt "animal tree animal"], d)%list /\
  Forall2 silent (garden ++ [PlainPhrase (of_three "cat" "tree" "animal")]) (told_garden ++ [txt "animal tree animal"])%list.
Proof.
  destruct (texts_ok _ _ brackets_answered) as (c & E). destruct (texts_ok _ _ plain_answered) as (d & E'). exists c, d.
  split; [exact fair0|]. split; [|split; [|split; [exact (WordingGroup three_in_brackets)|split; [exact (WordingSequence _ _ (SequencePlain _))|split; [exact three_meet|split; [exact E|split; [|split; [exact E'|]]]]]]]].
  - exact (proj2 (proj2 three_written)).
  - exact (proj1 (proj2 three_written)).
  - unfold garden, pets, told_garden. cbn [app map]. repeat (apply Forall2_cons; [first [reflexivity|exact I]|]). apply Forall2_nil.
  - unfold garden, pets, told_garden. cbn [app map]. repeat (apply Forall2_cons; [first [reflexivity|exact I]|]). apply Forall2_nil.
Qed.
(** `tom (oak dog)` is answered `animal tree animal`, and so is `animal tree animal`. *)
Example C76_example : exists c d, fair cfg0 /\
  written (c_snap context0) (map fst (names_of built_in_words)) [] (garden ++ [Phrase (of_three "tom" "oak" "dog")]) /\ tidy (garden ++ [Phrase (of_three "tom" "oak" "dog")]) = true /\
  written (c_snap context0) (map fst (names_of built_in_words)) [] garden /\ tidy garden = true /\ verbal (Phrase (of_three "tom" "oak" "dog")) /\
  run_session cfg0 fuel0 (map line (garden ++ [Phrase (of_three "tom" "oak" "dog")])) context0 = Ok (told_garden ++ [txt "animal tree animal"], c)%list /\
  Forall2 silent (garden ++ [Phrase (of_three "tom" "oak" "dog")]) (told_garden ++ [txt "animal tree animal"])%list /\
  run_session cfg0 fuel0 (map line garden ++ [txt "animal tree animal"]) context0 = Ok (told_garden ++ [txt "animal tree animal"], d)%list /\
  Forall2 silent garden told_garden.
Proof.
  destruct (texts_ok _ _ three_answered) as (c & E). destruct (texts_ok _ _ again_answered) as (d & E'). exists c, d.
  split; [exact fair0|]. split; [|split; [reflexivity|split; [exact (written_before _ _ _ _ _ garden_written)|split; [reflexivity|split; [exact I|split; [exact E|split; [|split; [exact E'|]]]]]]]].
  - exact (proj1 three_written).
  - unfold garden, pets, told_garden. cbn [app map]. repeat (apply Forall2_cons; [first [reflexivity|exact I]|]). apply Forall2_nil.
  - unfold garden, pets, told_garden. cbn [app map]. repeat (apply Forall2_cons; [first [reflexivity|exact I]|]). apply Forall2_nil.
Qed.
