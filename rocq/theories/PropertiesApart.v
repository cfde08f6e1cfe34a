(** C74: conversations about different words do not interfere. *)
From Verif Require Import Start Lexer LexerSpec Snapshot Search Context StoreSpec NameSpec StoreInv StoreFacts MapFacts AstFacts History Steps Keep Sim Meaning Settled Links CacheLife Displays Sample Witness NameWitness
  Spelled Asking Unruled Answers Replies Checks Phrases Groups Flat Outlines Notebook Notes PropertiesAnswers PropertiesWords PropertiesUttered PropertiesNotebook PropertiesChecks.
From Coq Require Import String List Relations PeanoNat Bool Lia.
Import ListNotations.
Local Open Scope string_scope.

(** ** Specification *)
(** The words that a line is about. *)
Definition topics (n : note) : list text :=
  match n with
  | Tell w v | Check w v | PlainCheck w v | Doubt _ w v | Object w v | Accept w v => [w; v]
  | Forget w | Ask w | Idle w | Drop _ w | NameOf w => [w]
  | Phrase ws | PlainPhrase ws => ws
  | Group p => words_of p
  | Outline os => all_terms os
  end.
Section Apart.
  Variable P : text -> bool.
  (** The lines about the words of [P]; the lines of a session are about these or about others. *)
  Definition mine (n : note) : bool := forallb P (topics n).
  Definition one_sided (n : note) : Prop := mine n = true \/ forall w, In w (topics n) -> P w = false.
  (** The answers to the lines about the words of [P]. *)
  Definition my_answers (ns : list note) (answers : list text) : list text := map snd (filter (fun p => mine (fst p)) (combine ns answers)).

  (** ** Lemmas *)
  (** [B'] is what [B] says of the words of [P], and it says nothing of these and others. *)
  Definition part (B B' : list (text * text)) : Prop :=
    (forall w v, In (w, v) B' <-> In (w, v) B /\ P w = true) /\ forall w v, In (w, v) B -> P v = P w.
  Lemma mine_all n w : mine n = true -> In w (topics n) -> P w = true.
  Proof. intros M J. unfold mine in M. rewrite forallb_forall in M. exact (M w J). Qed.
  Lemma part_none B B' w : part B B' -> (forall v, ~ In (w, v) B) -> forall v, ~ In (w, v) B'.
  Proof. intros [H _] N v J. apply H in J. exact (N v (proj1 J)). Qed.
  Lemma part_leads B B' w z : part B B' -> P w = true -> leads_to B w z -> leads_to B' w z.
  Proof.
    intros K M H. revert M. induction H as [w N|w v z J _ IH]; intros M; [exact (LeadsHere _ _ (part_none _ _ _ K N))|].
    eapply LeadsOn; [apply (proj1 K); split; [exact J|exact M]|apply IH]. rewrite (proj2 K _ _ J). exact M.
  Qed.
  Lemma part_led B B' w z : part B B' -> P w = true -> leads_to B' w z -> leads_to B w z.
  Proof.
    intros K M H. revert M. induction H as [w N|w v z J _ IH]; intros M.
    - apply LeadsHere. intros v J. apply (N v). apply (proj1 K). auto.
    - apply (proj1 K) in J. destruct J as [J _]. eapply LeadsOn; [exact J|apply IH]. rewrite (proj2 K _ _ J). exact M.
  Qed.
  Lemma part_away B B' n w z : part B B' -> P w = true -> away B n w z -> away B' n w z.
  Proof.
    intros K M H. revert M. induction H as [w N|n w v z J _ IH]; intros M; [exact (AwayHere _ _ (part_none _ _ _ K N))|].
    eapply AwayOn; [apply (proj1 K); split; [exact J|exact M]|apply IH]. rewrite (proj2 K _ _ J). exact M.
  Qed.
  Lemma part_all B B' ws vs : part B B' -> (forall w, In w ws -> P w = true) -> Forall2 (leads_to B) ws vs -> Forall2 (leads_to B') ws vs.
  Proof.
    intros K M H. induction H as [|w v ws vs L _ IH]; constructor; [apply (part_leads _ _ _ _ K (M w (or_introl eq_refl)) L)|].
    apply IH. intros x J. apply M. now right.
  Qed.
  Lemma part_passes B B' w z : part B B' -> passes B' w z -> passes B w z.
  Proof. intros K. induction 1 as [w v J|w u v J _ IH]; apply (proj1 K) in J; [apply PassesNext, J|eapply PassesOn; [apply J|exact IH]]. Qed.
  Lemma part_common B B' w : part B B' -> common B w -> common B' w.
  Proof. intros K C z [E|H]; apply C; [now left|right; exact (part_passes _ _ _ _ K H)]. Qed.
  Lemma part_objection B B' w v a : part B B' -> P w = true -> P v = true -> objection B w v a -> objection B' w v a.
  Proof.
    intros K Mw Mv H. destruct H as [w v u J N|w v U L N|w U].
    - apply ObjectionKept; [apply (proj1 K); auto|exact N].
    - apply ObjectionLoop; [exact (part_none _ _ _ K U)|exact (part_leads _ _ _ _ K Mv L)|exact N].
    - apply ObjectionSame, (part_none _ _ _ K U).
  Qed.
  Lemma part_told B B' w v : part B B' -> P w = true -> P v = true -> part ((w, v) :: B) ((w, v) :: B').
  Proof.
    intros [K C] Mw Mv. split; [intros x y|intros x y [E|J]; [injection E as <- <-; congruence|exact (C _ _ J)]].
    cbn [In]. rewrite (K x y). split; [intros [E|[J M]]; [injection E as <- <-; auto|auto]|intros [[E|J] M]; auto].
  Qed.
  Lemma part_others B B' w v : part B B' -> P w = false -> P v = false -> part ((w, v) :: B) B'.
  Proof.
    intros [K C] Mw Mv. split; [intros x y|intros x y [E|J]; [injection E as <- <-; congruence|exact (C _ _ J)]].
    cbn [In]. rewrite (K x y). split; [intros [J M]; auto|intros [[E|J] M]; [injection E as <- <-; congruence|auto]].
  Qed.
  Lemma part_forgot B B' w : part B B' -> part (without w B) (without w B').
  Proof.
    intros [K C]. split; [intros x y|intros x y J; apply without_spec in J; exact (C _ _ (proj1 J))].
    rewrite !without_spec, (K x y). cbn [fst]. tauto.
  Qed.
  Lemma part_forgot_other B B' w : part B B' -> P w = false -> part (without w B) B'.
  Proof.
    intros [K C] M. split; [intros x y|intros x y J; apply without_spec in J; exact (C _ _ (proj1 J))].
    rewrite without_spec, (K x y). cbn [fst]. split; [intros [J N]; split; [split; [exact J|intros ->; congruence]|exact N]|tauto].
  Qed.
  Lemma part_each B B' (W W' : list text) ws : part B B' -> (forall w, In w W -> P w = true -> In w W') -> (forall w, In w ws -> P w = true) ->
    Forall (fun w => In w W /\ common B w) ws -> Forall (fun w => In w W' /\ common B' w) ws.
  Proof.
    intros K I M H. induction H as [|w ws [J C] _ IH]; constructor; [split; [exact (I w J (M w (or_introl eq_refl)))|exact (part_common _ _ _ K C)]|].
    apply IH. intros x Q. apply M. now right.
  Qed.
  Lemma part_usable s (W W' : list text) w : (forall w, In w W -> P w = true -> In w W') -> P w = true -> usable s W w -> usable s W' w.
  Proof. intros I M (H1 & H2 & [J|N]); (split; [exact H1|split; [exact H2|]]); [left; exact (I _ J M)|right; exact N]. Qed.
  Lemma part_words (W W' : list text) w v : (forall w, In w W -> P w = true -> In w W') -> forall x, In x (w :: v :: W) -> P x = true -> In x (w :: v :: W').
  Proof. intros I x [<-|[<-|J]] M; cbn [In]; auto. Qed.
  Lemma part_words_other (W W' : list text) w v : P w = false -> P v = false -> (forall w, In w W -> P w = true -> In w W') -> forall x, In x (w :: v :: W) -> P x = true -> In x W'.
  Proof. intros Nw Nv I x [<-|[<-|J]] M; [congruence|congruence|auto]. Qed.
  Lemma mine_no n w : (forall w, In w (topics n) -> P w = false) -> In w (topics n) -> mine n = false.
  Proof.
    intros N J. unfold mine. destruct (forallb P (topics n)) eqn:E; [|reflexivity]. rewrite forallb_forall in E. rewrite <- (E w J). exact (N w J).
  Qed.

  Lemma part_written s W B ns : written s W B ns -> Forall one_sided ns -> forall W' B', part B B' -> (forall w, In w W -> P w = true -> In w W') ->
    written s W' B' (filter mine ns).
  Proof.
    induction 1 as [W B|W B w v ns U1 U2 N _ IH|W B w ns J _ IH|W B w ns J _ IH|W B w v z ns Jw Jv Lw Lv Z _ IH|W B ws ns L A _ IH|W B p ns C A _ IH|W B w v z ns Jw Jv Lw Lv Z Rw Rv _ IH|W B ws ns L A _ IH|W B pl w v z z' ns Jw Jv Lw Lv Zz Rz Rz' Q _ IH|W B os ns Sz A _ IH|W B w v b ns Jw Jv C O _ IH|W B w ns J N _ IH|W B w v ns Jw Jv C N NL _ IH|W B sh w u ns J I C _ IH|W B w ns J _ IH];
      intros SD W' B' K KW; [constructor|..]; inversion SD as [|? ? S SD']; subst; cbn [filter].
    all: match goal with |- written _ _ _ (if mine ?n then _ else _) => destruct (mine n) eqn:M; [pose proof (fun w => mine_all n w M) as MM; cbn [topics In] in MM|] end.
    all: try (destruct S as [S|S]; [congruence|]; cbn [topics In] in S).
    all: try solve [apply IH; auto].
    all: try solve [constructor; auto].
    - apply WrittenTell; [apply (part_usable _ W); auto|apply (part_usable _ W); auto|exact (part_none _ _ _ K N)|].
      apply IH; [exact SD'|apply part_told; auto|apply part_words; exact KW].
    - apply IH; [exact SD'|apply part_others; auto|apply part_words_other; auto].
    - apply WrittenForget; [auto|]. apply IH; [exact SD'|apply part_forgot, K|exact KW].
    - apply IH; [exact SD'|apply part_forgot_other; auto|exact KW].
    - apply (WrittenCheck _ _ _ _ _ z); [auto|auto|apply (part_leads B); auto|apply (part_leads B); auto|exact Z|auto].
    - apply WrittenPhrase; [exact L|apply (part_each B B' W W'); auto|auto].
    - apply WrittenGroup; [exact C|apply (part_each B B' W W'); auto|auto].
    - apply (WrittenPlainCheck _ _ _ _ _ z); [auto|auto|apply (part_leads B); auto|apply (part_leads B); auto|exact Z|exact Rw|exact Rv|auto].
    - apply WrittenPlainPhrase; [exact L|apply (part_each B B' W W'); auto|auto].
    - apply (WrittenDoubt _ _ _ _ _ _ z z'); [auto|auto|apply (part_leads B); auto|apply (part_leads B); auto|exact Zz|exact Rz|exact Rz'|exact Q|auto].
    - apply WrittenOutline; [exact Sz|apply (part_each B B' W W'); auto|auto].
    - apply (WrittenObject _ _ _ _ _ b); [auto|auto|exact (part_common _ _ _ K C)|apply (part_objection B); auto|auto].
    - apply WrittenIdle; [auto|exact (part_none _ _ _ K N)|auto].
    - apply WrittenAccept; [auto|auto|exact (part_common _ _ _ K C)|exact (part_none _ _ _ K N)|intros L; apply NL, (part_led B B'); auto|].
      apply IH; [exact SD'|apply part_told; auto|apply part_words; exact KW].
    - apply IH; [exact SD'|apply part_others; auto|apply part_words_other; auto].
    - apply (WrittenDrop _ _ _ _ _ u); [auto|apply (proj1 K); auto|intros E; exact (part_common _ _ _ K (C E))|]. apply IH; [exact SD'|apply part_forgot, K|exact KW].
    - apply IH; [exact SD'|apply part_forgot_other; auto|exact KW].
  Qed.
  Lemma part_replies td B ns answers : replies td B ns answers -> Forall one_sided ns -> forall B', part B B' ->
    replies td B' (filter mine ns) (my_answers ns answers).
  Proof.
    unfold my_answers. induction 1; intros SD B' K; [constructor|..]; inversion SD as [|? ? S SD']; subst; cbn [filter combine map fst].
    all: match goal with |- replies _ _ (if mine ?n then _ else _) _ => destruct (mine n) eqn:M; [pose proof (fun w => mine_all n w M) as MM; cbn [topics In] in MM|] end.
    all: try (destruct S as [S|S]; [congruence|]; cbn [topics In] in S).
    all: cbn [map snd].
    all: try solve [apply IHreplies; auto].
    all: try solve [apply IHreplies; [exact SD'|first [apply part_others; solve [auto]|apply part_forgot_other; solve [auto]]]].
    all: try solve [apply RepliesRefused; auto].
    all: try solve [econstructor; eauto using part_leads, part_away, part_all, part_objection, part_told, part_forgot].
    - apply RepliesTell, IHreplies; [exact SD'|apply part_told; auto].
    - apply RepliesObject; [apply (part_objection B); auto|apply IHreplies; auto].
    - apply RepliesAccept, IHreplies; [exact SD'|apply part_told; auto].
  Qed.
End Apart.

(** ** Theorem *)
(** A session with a new interpreter in which each line is about the words of [P] or about others only.  The lines about
    the words of [P] are answered as they are in the session of just these lines, whatever the hash orders and the number of steps. *)
Theorem C74_conversations_do_not_interfere P cfg fuel cfg' fuel' ns answers answers' c d :
  fair cfg -> dbg cfg = true -> fair cfg' -> dbg cfg' = true ->
  written (c_snap context0) (map fst (names_of built_in_words)) [] ns -> tidy ns = true -> Forall (one_sided P) ns ->
  run_session cfg fuel (map line ns) context0 = Ok (answers, c) -> Forall2 silent ns answers ->
  run_session cfg' fuel' (map line (filter (mine P) ns)) context0 = Ok (answers', d) -> Forall2 silent (filter (mine P) ns) answers' ->
  answers' = my_answers P ns answers.
Proof.
  intros F D F' D' W T O E SI E' SI'.
  assert (K : part P [] []) by (split; [intros w v; cbn; tauto|intros w v []]).
  pose proof (part_written P _ _ _ _ W O _ _ K (fun w J _ => J)) as W'.
  assert (T' : tidy (filter (mine P) ns) = true).
  { unfold tidy in *. rewrite forallb_forall in *. intros n J. apply filter_In in J. exact (T n (proj1 J)). }
  pose proof (C63_new_interpreters_take_notes cfg fuel _ _ c F D W E SI) as H. pose proof (C63_new_interpreters_take_notes cfg' fuel' _ _ d F' D' W' E' SI') as H'.
  rewrite T in H. rewrite T' in H'. refine (C63_answers_are_determined _ _ _ _ _ _ _ W' T' H' (part_replies P _ _ _ _ H O _ K)). intros a b x [].
Qed.
Print Assumptions C74_conversations_do_not_interfere.

(** ** A session with a new interpreter about pets and trees *)
Definition of_pets (w : text) : bool := existsb (fun v => if list_eq_dec BinNat.N.eq_dec w v then true else false) (map txt ["tom"; "cat"; "animal"; "dog"]).
Definition pets_and_trees : list note :=
  (pets ++ [Tell (txt "oak") (txt "tree"); Ask (txt "tom"); Object (txt "tree") (txt "oak"); Ask (txt "oak"); Check (txt "tom") (txt "cat"); Forget (txt "oak"); Ask (txt "oak"); NameOf (txt "tom"); Ask (txt "dog")])%list.
Definition both_answers : list text := map txt [""; ""; ""; ""; "animal"; "Cannot allow a chain of reduction rules to loop."; "tree"; "true"; ""; "oak"; "'tom'"; "animal"].
Definition pets_answers : list text := map txt [""; ""; ""; "animal"; "true"; "'tom'"; "animal"].
Lemma oak_words : plain_word_b (txt "oak") && unknown_b (c_snap context0) (txt "oak") && plain_word_b (txt "tree") && unknown_b (c_snap context0) (txt "tree") = true.
Proof. vm_compute. reflexivity. Qed.
Lemma both_answered : texts_b (run_session cfg0 fuel0 (map line pets_and_trees) context0) both_answers = true.
Proof. vm_compute. reflexivity. Qed.
Lemma pets_answered_alone : texts_b (run_session cfg0 fuel0 (map line (filter (mine of_pets) pets_and_trees)) context0) pets_answers = true.
Proof. vm_compute. reflexivity. Qed.
Lemma both_written : written (c_snap context0) (map fst (names_of built_in_words)) [] pets_and_trees.
Proof.
  generalize (map fst (names_of built_in_words)). intros W. pose proof pets_words as H. pose proof oak_words as X. revert H X. generalize (c_snap context0). intros s H X.
  do 7 (apply andb_prop in H; destruct H as [H ?]). do 3 (apply andb_prop in X; destruct X as [X ?]).
  assert (NEW : forall W w, plain_word_b w = true -> unknown_b s w = true -> usable s W w).
  { intros W1 w P U. destruct (plain_word_ok w P). split; [assumption|]. split; [assumption|]. right. exact (unknown_ok _ _ U). }
  unfold pets_and_trees. cbn [app pets]. do 4 (apply WrittenTell; [apply NEW; assumption|apply NEW; assumption|intros u J; cbn in J; decompose [or False] J; discriminate|]).
  assert (A : forall B v, (forall u, ~ In (v, u) B) -> leads_to B v v) by (intros B v N; apply LeadsHere, N).
  apply WrittenAsk; [cbn; tauto|].
  apply (WrittenObject _ _ _ _ _ (txt "Cannot allow a chain of reduction rules to loop.")); [cbn; tauto|cbn; tauto| | |].
  { intros z [<-|K]; [intros J; cbn in J; decompose [or False] J; discriminate|]. exfalso. inversion K as [? ? J|? ? ? J]; subst; cbn in J; decompose [or False] J; discriminate. }
  { apply ObjectionLoop; [intros u J; cbn in J; decompose [or False] J; discriminate| |discriminate]. eapply LeadsOn; [cbn; tauto|]. apply A. intros u J. cbn in J. decompose [or False] J; discriminate. }
  apply WrittenAsk; [cbn; tauto|].
  eapply (WrittenCheck _ _ _ _ _ (txt "animal")); [cbn; tauto|cbn; tauto| | |intros J; cbn in J; decompose [or False] J; discriminate|].
  { eapply LeadsOn with (v := txt "cat"); [cbn; tauto|]. eapply LeadsOn with (v := txt "animal"); [cbn; tauto|]. apply A. intros u J. cbn in J. decompose [or False] J; discriminate. }
  { eapply LeadsOn with (v := txt "animal"); [cbn; tauto|]. apply A. intros u J. cbn in J. decompose [or False] J; discriminate. }
  apply WrittenForget; [cbn; tauto|]. apply WrittenAsk; [cbn; tauto|]. apply WrittenNameOf; [cbn; tauto|]. apply WrittenAsk; [cbn; tauto|constructor].
Qed.
Example C74_example : exists c d, fair cfg0 /\ written (c_snap context0) (map fst (names_of built_in_words)) [] pets_and_trees /\ tidy pets_and_trees = true /\
  Forall (one_sided of_pets) pets_and_trees /\
  run_session cfg0 fuel0 (map line pets_and_trees) context0 = Ok (both_answers, c) /\ Forall2 silent pets_and_trees both_answers /\
  run_session cfg0 fuel0 (map line (filter (mine of_pets) pets_and_trees)) context0 = Ok (pets_answers, d) /\
  Forall2 silent (filter (mine of_pets) pets_and_trees) pets_answers /\ pets_answers = my_answers of_pets pets_and_trees both_answers.
Proof.
  destruct (texts_ok _ _ both_answered) as (c & E). destruct (texts_ok _ _ pets_answered_alone) as (d & E'). exists c, d.
  split; [exact fair0|]. split; [exact both_written|]. split; [reflexivity|]. split; [|split; [exact E|split; [|split; [exact E'|split; [|reflexivity]]]]].
  - unfold pets_and_trees, pets. cbn [app].
    repeat (apply Forall_cons; [first [left; reflexivity|right; intros w J; cbn in J; decompose [or False] J; subst; reflexivity]|]). apply Forall_nil.
  - unfold pets_and_trees, both_answers, pets. cbn [app map]. repeat (apply Forall2_cons; [first [reflexivity|exact I]|]). apply Forall2_nil.
  - change (filter (mine of_pets) pets_and_trees) with (pets ++ [Ask (txt "tom"); Check (txt "tom") (txt "cat"); NameOf (txt "tom"); Ask (txt "dog")])%list.
    unfold pets_answers, pets. cbn [app map]. repeat (apply Forall2_cons; [first [reflexivity|exact I]|]). apply Forall2_nil.
Qed.
