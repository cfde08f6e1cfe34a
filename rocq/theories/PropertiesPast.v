(** C72: what counts in sessions of declarations is what is declared, not how this came about. *)
From Verif Require Import Start Lexer LexerSpec Snapshot Search Context StoreSpec NameSpec StoreInv StoreFacts MapFacts AstFacts History Steps Keep Sim Meaning Settled Links CacheLife Displays Sample Witness NameWitness
  Spelled Asking Unruled Answers Replies Checks Phrases Groups Flat Outlines Notebook Notes PropertiesAnswers PropertiesWords PropertiesUttered PropertiesNotebook PropertiesChecks.
From Coq Require Import String List Relations Permutation PeanoNat Bool Lia.
Import ListNotations.
Local Open Scope string_scope.

(** ** Specification *)
(** The same is declared, whatever the order. *)
Definition alike (B B' : list (text * text)) : Prop := forall w v, In (w, v) B <-> In (w, v) B'.

(** ** Lemmas *)
Lemma alike_sym B B' : alike B B' -> alike B' B.
Proof. intros A w v. symmetry. apply A. Qed.
Lemma alike_cons w v B B' : alike B B' -> alike ((w, v) :: B) ((w, v) :: B').
Proof. intros A x y. cbn. rewrite (A x y). reflexivity. Qed.
Lemma alike_without w B B' : alike B B' -> alike (without w B) (without w B').
Proof. intros A x y. unfold without. rewrite !filter_In, (A x y). reflexivity. Qed.
Lemma alike_leads B B' w z : alike B B' -> leads_to B w z -> leads_to B' w z.
Proof.
  intros A H. induction H as [w N|w v z J _ IH]; [apply LeadsHere; intros v J; apply A in J; exact (N v J)|].
  eapply LeadsOn; [apply A, J|exact IH].
Qed.
Lemma alike_away B B' n w z : alike B B' -> away B n w z -> away B' n w z.
Proof.
  intros A H. induction H as [w N|n w v z J _ IH]; [apply AwayHere; intros v J; apply A in J; exact (N v J)|].
  eapply AwayOn; [apply A, J|exact IH].
Qed.
Lemma alike_all B B' ws vs : alike B B' -> Forall2 (leads_to B) ws vs -> Forall2 (leads_to B') ws vs.
Proof. intros A H. induction H; constructor; [eapply alike_leads; eassumption|assumption]. Qed.
Lemma alike_objection B B' w v a : alike B B' -> objection B w v a -> objection B' w v a.
Proof.
  intros A H. destruct H as [w v u J N|w v U L N|w U].
  - apply ObjectionKept; [apply A, J|exact N].
  - apply ObjectionLoop; [intros u J; apply A in J; exact (U u J)|eapply alike_leads; eassumption|exact N].
  - apply ObjectionSame. intros u J. apply A in J. exact (U u J).
Qed.
Lemma alike_replies td B ns answers : replies td B ns answers -> forall B', alike B B' -> replies td B' ns answers.
Proof.
  induction 1; intros B' A;
    (solve [eapply RepliesRefused; eauto] ||
     (econstructor; eauto using alike_cons, alike_without, alike_leads, alike_away, alike_all, alike_objection)).
Qed.
Lemma replies_rest td ns ms : forall B answers others, List.length answers = List.length ns ->
  replies td B (ns ++ ms) (answers ++ others) -> replies td (declared B ns) ms others.
Proof.
  induction ns as [|n ns IH]; intros B [|a answers] others L H; try discriminate L; [exact H|].
  cbn in H. injection L as L. inversion H; subst; cbn [declared]; eapply IH; eassumption.
Qed.
Lemma written_rest s ns ms : forall W B, written s W B (ns ++ ms) -> written s (words_known W ns) (declared B ns) ms.
Proof. induction ns as [|n ns IH]; intros W B H; [exact H|]. cbn in H. inversion H; subst; cbn [declared words_known]; eauto. Qed.
Lemma tidy_rest ns ms : tidy (ns ++ ms) = true -> tidy ms = true.
Proof. unfold tidy. rewrite forallb_app. intros H. apply andb_prop in H. apply H. Qed.

(** ** C72 *)
(** Two sessions with new interpreters go on in the same way, with [rest].  Whatever was declared, forgotten,
    asked, evaluated and refused before, in whatever order: if the same declarations stand before [rest], then
    [rest] is answered in the same way, whatever the hash orders and the number of steps. *)
Theorem C72_only_what_is_declared_counts cfg fuel cfg' fuel' past past' rest before before' answers answers' c d :
  fair cfg -> dbg cfg = true -> fair cfg' -> dbg cfg' = true ->
  written (c_snap context0) (map fst (names_of built_in_words)) [] (past ++ rest) -> tidy (past ++ rest) = true ->
  written (c_snap context0) (map fst (names_of built_in_words)) [] (past' ++ rest) -> tidy (past' ++ rest) = true ->
  alike (declared [] past) (declared [] past') ->
  run_session cfg fuel (map line (past ++ rest)) context0 = Ok (before ++ answers, c)%list ->
  List.length before = List.length past -> Forall2 silent (past ++ rest) (before ++ answers)%list ->
  run_session cfg' fuel' (map line (past' ++ rest)) context0 = Ok (before' ++ answers', d)%list ->
  List.length before' = List.length past' -> Forall2 silent (past' ++ rest) (before' ++ answers')%list ->
  answers = answers'.
Proof.
  intros F D F' D' W T W' T' A E L SI E' L' SI'.
  pose proof (C63_new_interpreters_take_notes cfg fuel _ _ c F D W E SI) as H. pose proof (C63_new_interpreters_take_notes cfg' fuel' _ _ d F' D' W' E' SI') as H'.
  rewrite T in H. rewrite T' in H'. apply replies_rest in H; [|exact L]. apply replies_rest in H'; [|exact L'].
  apply alike_replies with (B' := declared [] past) in H'; [|apply alike_sym, A].
  refine (C63_answers_are_determined _ _ _ _ _ _ _ (written_rest _ _ _ _ _ W) (tidy_rest _ _ T) H H').
  refine (declared_single _ _ _ _ _ (written_before _ _ _ _ _ W)). intros x y z [].
Qed.
Print Assumptions C72_only_what_is_declared_counts.

(** In particular declarations can be made in any order. *)
Definition telling_all (B : list (text * text)) : list note := map (fun p => Tell (fst p) (snd p)) B.
Lemma declared_all B : forall B0 w v, In (w, v) (declared B0 (telling_all B)) <-> In (w, v) B \/ In (w, v) B0.
Proof.
  induction B as [|[x y] B IH]; intros B0 w v; cbn [telling_all map declared fst snd]; [cbn; tauto|].
  unfold telling_all in IH. rewrite IH. cbn [In]. tauto.
Qed.
Theorem C72_order_does_not_matter cfg fuel cfg' fuel' facts facts' rest before before' answers answers' c d :
  fair cfg -> dbg cfg = true -> fair cfg' -> dbg cfg' = true -> Permutation facts facts' ->
  written (c_snap context0) (map fst (names_of built_in_words)) [] (telling_all facts ++ rest) ->
  written (c_snap context0) (map fst (names_of built_in_words)) [] (telling_all facts' ++ rest) -> tidy rest = true ->
  run_session cfg fuel (map line (telling_all facts ++ rest)) context0 = Ok (before ++ answers, c)%list ->
  List.length before = List.length facts -> Forall2 silent (telling_all facts ++ rest) (before ++ answers)%list ->
  run_session cfg' fuel' (map line (telling_all facts' ++ rest)) context0 = Ok (before' ++ answers', d)%list ->
  List.length before' = List.length facts' -> Forall2 silent (telling_all facts' ++ rest) (before' ++ answers')%list ->
  answers = answers'.
Proof.
  intros F D F' D' P W W' T E L SI E' L' SI'.
  assert (T1 : forall B, tidy (telling_all B ++ rest) = true).
  { intros B. unfold tidy in *. rewrite forallb_app, T, andb_true_r. unfold telling_all. apply forallb_forall. intros n J.
    apply in_map_iff in J. destruct J as (p & <- & _). reflexivity. }
  refine (C72_only_what_is_declared_counts cfg fuel cfg' fuel' _ _ rest before before' answers answers' c d F D F' D' W (T1 _) W' (T1 _) _ E _ SI E' _ SI').
  - intros w v. rewrite !declared_all. split; intros [J|[]]; left; [exact (Permutation_in _ P J)|exact (Permutation_in _ (Permutation_sym P) J)].
  - unfold telling_all. rewrite map_length. exact L.
  - unfold telling_all. rewrite map_length. exact L'.
Qed.
Print Assumptions C72_order_does_not_matter.

(** Lines that declare nothing and forget nothing can be left out, some or all of them. *)
Definition idle (n : note) : Prop := match n with Tell _ _ | Accept _ _ | Forget _ | Drop _ _ => False | _ => True end.
Inductive shortened : list note -> list text -> list note -> list text -> Prop :=
| ShortenedEnd : shortened [] [] [] []
| ShortenedKept n a ns answers ms others : shortened ns answers ms others -> shortened (n :: ns) (a :: answers) (n :: ms) (a :: others)
| ShortenedLeft n a ns answers ms others : idle n -> shortened ns answers ms others -> shortened (n :: ns) (a :: answers) ms others.
Lemma shortened_written s ns answers ms others : shortened ns answers ms others -> forall W B, written s W B ns -> written s W B ms.
Proof.
  induction 1 as [|n a ns answers ms others _ IH|n a ns answers ms others I _ IH]; intros W B H; [exact H| |].
  - inversion H; subst; econstructor; eauto.
  - inversion H; subst; try destruct I; auto.
Qed.
Lemma shortened_replies td ns answers ms others : shortened ns answers ms others -> forall B, replies td B ns answers -> replies td B ms others.
Proof.
  induction 1 as [|n a ns answers ms others _ IH|n a ns answers ms others I _ IH]; intros B H; [exact H| |].
  - inversion H; subst; first [solve [econstructor; eauto]|apply RepliesRefused; auto].
  - inversion H; subst; try destruct I; auto.
Qed.
Lemma shortened_tidy ns answers ms others : shortened ns answers ms others -> tidy ns = true -> tidy ms = true.
Proof.
  unfold tidy. induction 1 as [|n a ns answers ms others _ IH|n a ns answers ms others _ _ IH]; intros T; [exact T| |]; cbn [forallb] in *; apply andb_prop in T; destruct T as [T1 T2]; [rewrite T1, (IH T2); reflexivity|exact (IH T2)].
Qed.
Theorem C72_asking_leaves_no_trace cfg fuel cfg' fuel' notes answers fewer kept others c d :
  fair cfg -> dbg cfg = true -> fair cfg' -> dbg cfg' = true ->
  written (c_snap context0) (map fst (names_of built_in_words)) [] notes -> tidy notes = true ->
  run_session cfg fuel (map line notes) context0 = Ok (answers, c) -> Forall2 silent notes answers ->
  shortened notes answers fewer kept ->
  run_session cfg' fuel' (map line fewer) context0 = Ok (others, d) -> Forall2 silent fewer others ->
  others = kept.
Proof.
  intros F D F' D' W T E SI SH E' SI'. pose proof (shortened_written _ _ _ _ _ SH _ _ W) as W'. pose proof (shortened_tidy _ _ _ _ SH T) as T'.
  pose proof (C63_new_interpreters_take_notes cfg fuel _ _ c F D W E SI) as H. pose proof (C63_new_interpreters_take_notes cfg' fuel' _ _ d F' D' W' E' SI') as H'.
  rewrite T in H. rewrite T' in H'. apply (shortened_replies _ _ _ _ _ SH) in H.
  refine (C63_answers_are_determined _ _ _ _ _ _ _ W' T' H' H). intros x y z [].
Qed.
Print Assumptions C72_asking_leaves_no_trace.

(** ** Two sessions with new interpreters *)
Definition detour : list note :=
  [Tell (txt "dog") (txt "animal"); Tell (txt "tom") (txt "bird"); Ask (txt "tom"); Forget (txt "tom"); Tell (txt "cat") (txt "animal"); NameOf (txt "cat"); Tell (txt "tom") (txt "cat")].
Definition ahead : list note :=
  [Ask (txt "tom"); NameOf (txt "tom"); Check (txt "tom") (txt "cat"); Forget (txt "cat"); Ask (txt "tom")].
Definition ahead_answers : list text := map txt ["animal"; "'tom'"; "true"; ""; "cat"].
Lemma detour_words : plain_word_b (txt "bird") && unknown_b (c_snap context0) (txt "bird") = true.
Proof. vm_compute. reflexivity. Qed.
Lemma direct_answered : texts_b (run_session cfg0 fuel0 (map line (pets ++ ahead)) context0) (map txt [""; ""; ""] ++ ahead_answers)%list = true.
Proof. vm_compute. reflexivity. Qed.
Lemma detour_answered : texts_b (run_session cfg0 fuel0 (map line (detour ++ ahead)) context0) (map txt [""; ""; "bird"; ""; ""; "'cat'"; ""] ++ ahead_answers)%list = true.
Proof. vm_compute. reflexivity. Qed.
Lemma both_written : written (c_snap context0) (map fst (names_of built_in_words)) [] (pets ++ ahead) /\
  written (c_snap context0) (map fst (names_of built_in_words)) [] (detour ++ ahead).
Proof.
  generalize (map fst (names_of built_in_words)). intros W.
  pose proof pets_words as H. pose proof detour_words as H'. revert H H'. generalize (c_snap context0). intros s H H'. do 7 (apply andb_prop in H; destruct H as [H ?]).
  apply andb_prop in H'. destruct H' as [B1 B2].
  assert (NEW : forall W w, plain_word_b w = true -> unknown_b s w = true -> usable s W w).
  { intros W1 w P U. destruct (plain_word_ok w P). split; [assumption|]. split; [assumption|]. right. exact (unknown_ok _ _ U). }
  assert (AH : forall W B, In (txt "tom") W -> In (txt "cat") W -> alike (declared [] pets) B -> written s W B ahead).
  { intros W1 B Jt Jc A. pose proof (alike_leads _ _ _ _ A (pets_lead (txt "tom") (or_introl eq_refl))) as Lt.
    pose proof (alike_leads _ _ _ _ A (pets_lead (txt "cat") (or_intror (or_introl eq_refl)))) as Lc.
    unfold ahead. apply WrittenAsk; [exact Jt|]. apply WrittenNameOf; [exact Jt|].
    eapply WrittenCheck; [exact Jt|exact Jc|exact Lt|exact Lc| |].
    { intros J. cbn in J. decompose [or False] J; discriminate. }
    apply WrittenForget; [exact Jc|]. apply WrittenAsk; [exact Jt|constructor]. }
  split.
  - cbn [app pets]. do 3 (apply WrittenTell; [apply NEW; assumption|apply NEW; assumption|intros u J; cbn in J; decompose [or False] J; discriminate|]).
    apply AH; [cbn; tauto|cbn; tauto|intros w v; cbn; tauto].
  - cbn [app detour]. do 2 (apply WrittenTell; [apply NEW; assumption|apply NEW; assumption|intros u J; cbn in J; decompose [or False] J; discriminate|]).
    apply WrittenAsk; [cbn; tauto|]. apply WrittenForget; [cbn; tauto|].
    apply WrittenTell; [apply NEW; assumption|apply NEW; assumption|intros u J; cbn in J; decompose [or False] J; discriminate|].
    apply WrittenNameOf; [cbn; tauto|].
    apply WrittenTell; [apply NEW; assumption|apply NEW; assumption|intros u J; cbn in J; decompose [or False] J; discriminate|].
    apply AH; [cbn; tauto|cbn; tauto|]. intros w v. cbn. tauto.
Qed.
Example C72_example : exists c d, fair cfg0 /\ written (c_snap context0) (map fst (names_of built_in_words)) [] (pets ++ ahead) /\ tidy (pets ++ ahead) = true /\
  written (c_snap context0) (map fst (names_of built_in_words)) [] (detour ++ ahead) /\ tidy (detour ++ ahead) = true /\
  alike (declared [] pets) (declared [] detour) /\
  run_session cfg0 fuel0 (map line (pets ++ ahead)) context0 = Ok (map txt [""; ""; ""] ++ ahead_answers, c)%list /\
  Forall2 silent (pets ++ ahead) (map txt [""; ""; ""] ++ ahead_answers)%list /\
  run_session cfg0 fuel0 (map line (detour ++ ahead)) context0 = Ok (map txt [""; ""; "bird"; ""; ""; "'cat'"; ""] ++ ahead_answers, d)%list /\
  Forall2 silent (detour ++ ahead) (map txt [""; ""; "bird"; ""; ""; "'cat'"; ""] ++ ahead_answers)%list.
Proof.
  destruct (texts_ok _ _ direct_answered) as (c & E). destruct (texts_ok _ _ detour_answered) as (d & E'). exists c, d.
  split; [exact fair0|]. split; [exact (proj1 both_written)|]. split; [reflexivity|]. split; [exact (proj2 both_written)|]. split; [reflexivity|].
  split; [intros w v; cbn; tauto|]. split; [exact E|]. split; [|split; [exact E'|]].
  - unfold ahead_answers, pets, ahead. cbn [app map]. repeat (apply Forall2_cons; [first [reflexivity|exact I]|]). apply Forall2_nil.
  - unfold ahead_answers, detour, ahead. cbn [app map]. repeat (apply Forall2_cons; [first [reflexivity|exact I]|]). apply Forall2_nil.
Qed.

(** ** The declarations in another order *)
Definition facts : list (text * text) := [(txt "tom", txt "cat"); (txt "cat", txt "animal"); (txt "dog", txt "animal")].
Lemma reversed_answered : texts_b (run_session cfg0 fuel0 (map line (telling_all (rev facts) ++ ahead)) context0) (map txt [""; ""; ""] ++ ahead_answers)%list = true.
Proof. vm_compute. reflexivity. Qed.
Lemma reversed_written : written (c_snap context0) (map fst (names_of built_in_words)) [] (telling_all (rev facts) ++ ahead).
Proof.
  generalize (map fst (names_of built_in_words)). intros W. pose proof pets_words as H. revert H. generalize (c_snap context0). intros s H. do 7 (apply andb_prop in H; destruct H as [H ?]).
  assert (NEW : forall W w, plain_word_b w = true -> unknown_b s w = true -> usable s W w).
  { intros W1 w P U. destruct (plain_word_ok w P). split; [assumption|]. split; [assumption|]. right. exact (unknown_ok _ _ U). }
  assert (A : alike (declared [] pets) (declared [] (telling_all (rev facts)))) by (intros w v; cbn; tauto).
  pose proof (alike_leads _ _ _ _ A (pets_lead (txt "tom") (or_introl eq_refl))) as Lt.
  pose proof (alike_leads _ _ _ _ A (pets_lead (txt "cat") (or_intror (or_introl eq_refl)))) as Lc.
  cbn [declared telling_all rev facts map app fst snd] in *.
  do 3 (apply WrittenTell; [apply NEW; assumption|apply NEW; assumption|intros u J; cbn in J; decompose [or False] J; discriminate|]).
  unfold ahead. apply WrittenAsk; [cbn; tauto|]. apply WrittenNameOf; [cbn; tauto|].
  eapply WrittenCheck; [cbn; tauto|cbn; tauto|exact Lt|exact Lc| |].
  { intros J. cbn in J. decompose [or False] J; discriminate. }
  apply WrittenForget; [cbn; tauto|]. apply WrittenAsk; [cbn; tauto|constructor].
Qed.
Example C72_order_example : exists c d, fair cfg0 /\ Permutation facts (rev facts) /\
  written (c_snap context0) (map fst (names_of built_in_words)) [] (telling_all facts ++ ahead) /\
  written (c_snap context0) (map fst (names_of built_in_words)) [] (telling_all (rev facts) ++ ahead) /\ tidy ahead = true /\
  run_session cfg0 fuel0 (map line (telling_all facts ++ ahead)) context0 = Ok (map txt [""; ""; ""] ++ ahead_answers, c)%list /\
  Forall2 silent (telling_all facts ++ ahead) (map txt [""; ""; ""] ++ ahead_answers)%list /\
  run_session cfg0 fuel0 (map line (telling_all (rev facts) ++ ahead)) context0 = Ok (map txt [""; ""; ""] ++ ahead_answers, d)%list /\
  Forall2 silent (telling_all (rev facts) ++ ahead) (map txt [""; ""; ""] ++ ahead_answers)%list.
Proof.
  destruct (texts_ok _ _ direct_answered) as (c & E). destruct (texts_ok _ _ reversed_answered) as (d & E'). exists c, d.
  split; [exact fair0|]. split; [apply Permutation_rev|]. split; [exact (proj1 both_written)|]. split; [exact reversed_written|]. split; [reflexivity|].
  split; [exact E|]. split; [|split; [exact E'|]].
  - unfold ahead_answers, telling_all, facts, ahead. cbn [app map fst snd]. repeat (apply Forall2_cons; [first [reflexivity|exact I]|]). apply Forall2_nil.
  - unfold ahead_answers, telling_all, facts, ahead. cbn [rev app map fst snd]. repeat (apply Forall2_cons; [first [reflexivity|exact I]|]). apply Forall2_nil.
Qed.

(** ** Some of the questions left out *)
Definition fewer : list note := [Ask (txt "tom"); Forget (txt "cat"); Ask (txt "tom")].
Definition fewer_answers : list text := map txt ["animal"; ""; "cat"].
Lemma fewer_answered : texts_b (run_session cfg0 fuel0 (map line (pets ++ fewer)) context0) (map txt [""; ""; ""] ++ fewer_answers)%list = true.
Proof. vm_compute. reflexivity. Qed.
Example C72_asking_example : exists c d, fair cfg0 /\ written (c_snap context0) (map fst (names_of built_in_words)) [] (pets ++ ahead) /\ tidy (pets ++ ahead) = true /\
  run_session cfg0 fuel0 (map line (pets ++ ahead)) context0 = Ok (map txt [""; ""; ""] ++ ahead_answers, c)%list /\
  Forall2 silent (pets ++ ahead) (map txt [""; ""; ""] ++ ahead_answers)%list /\
  shortened (pets ++ ahead) (map txt [""; ""; ""] ++ ahead_answers) (pets ++ fewer) (map txt [""; ""; ""] ++ fewer_answers) /\
  run_session cfg0 fuel0 (map line (pets ++ fewer)) context0 = Ok (map txt [""; ""; ""] ++ fewer_answers, d)%list /\
  Forall2 silent (pets ++ fewer) (map txt [""; ""; ""] ++ fewer_answers)%list.
Proof.
  destruct (texts_ok _ _ direct_answered) as (c & E). destruct (texts_ok _ _ fewer_answered) as (d & E'). exists c, d.
  split; [exact fair0|]. split; [exact (proj1 both_written)|]. split; [reflexivity|]. split; [exact E|]. split; [|split; [|split; [exact E'|]]].
  - unfold ahead_answers, pets, ahead. cbn [app map]. repeat (apply Forall2_cons; [first [reflexivity|exact I]|]). apply Forall2_nil.
  - unfold ahead_answers, fewer_answers, pets, ahead, fewer. cbn [app map].
    do 4 apply ShortenedKept. do 2 (apply ShortenedLeft; [exact I|]). do 2 apply ShortenedKept. apply ShortenedEnd.
  - unfold fewer_answers, pets, fewer. cbn [app map]. repeat (apply Forall2_cons; [first [reflexivity|exact I]|]). apply Forall2_nil.
Qed.
