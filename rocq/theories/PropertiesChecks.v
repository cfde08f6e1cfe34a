(** C65: whether one word reduces to another, in sessions of declarations. *)
From Verif Require Import Start Lexer LexerSpec Snapshot Search Context StoreSpec NameSpec StoreInv StoreFacts MapFacts AstFacts History Steps Keep Sim Meaning Settled Links CacheLife Displays Sample Witness NameWitness
  Spelled Asking Unruled Answers Replies Checks Phrases Groups Flat Notebook Notes PropertiesAnswers PropertiesWords PropertiesUttered PropertiesNotebook.
From Coq Require Import String List Relations PeanoNat Bool Lia.
Import ListNotations.
Local Open Scope string_scope.

(** ** Specification *)
(** One word can be replaced by the other according to what was declared, in one step or more. *)
Inductive becomes (B : list (text * text)) : text -> text -> Prop :=
| BecomesNext w v : In (w, v) B -> becomes B w v
| BecomesOn w u v : In (w, u) B -> becomes B u v -> becomes B w v.
Definition yes_or_no (y : bool) : text := if y then txt "true" else txt "false".

(** ** Lemmas *)
Lemma becomes_away B w v : becomes B w v -> single B -> forall m n z, away B m w z -> away B n v z -> lt n m.
Proof.
  intros H S m n z. apply passes_away; [exact S|]. induction H as [w v J|w u v J _ IH]; [apply PassesNext, J|exact (PassesOn B w u v J IH)].
Qed.
Lemma replies_last td ns n : forall B answers a, replies td B (ns ++ [n]) (answers ++ [a]) -> replies td (declared B ns) [n] [a].
Proof.
  induction ns as [|x ns IH]; intros B answers a H.
  - destruct answers as [|b answers]; [exact H|]. exfalso. cbn in H.
    assert (K : replies td [] [] [] -> forall B' r, replies td B' [] r -> r = []) by (intros _ B' r X; inversion X; reflexivity).
    inversion H; subst; match goal with X : replies _ _ [] _ |- _ => apply K in X; [|constructor] end; destruct answers; discriminate.
  - destruct answers as [|b answers].
    + exfalso. cbn in H. inversion H; subst; match goal with X : replies _ _ (ns ++ [n]) [] |- _ => destruct ns; inversion X end.
    + cbn in H. inversion H; subst; cbn [declared]; eapply IH; eassumption.
Qed.
Lemma declared_single s W B ns : single B -> written s W B ns -> single (declared B ns).
Proof.
  intros S H. revert S. induction H as [W B|W B w v ns _ _ N _ IH|W B w ns _ _ IH|W B w ns _ _ IH|W B w v z ns _ _ _ _ _ _ IH|W B ws ns _ _ _ IH|W B p ns _ _ _ IH|W B w v z ns _ _ _ _ _ _ _ _ IH|W B ws ns _ _ _ IH|W B pl w v z z' ns _ _ _ _ _ _ _ _ _ IH|W B os ns _ _ _ IH|W B w v b ns _ _ _ _ _ IH|W B w ns _ _ _ IH|W B w v ns _ _ _ N _ _ IH|W B sh w u ns _ _ _ _ IH|W B w ns _ _ IH]; intros S; cbn [declared]; auto.
  - apply IH. intros a b d [E1|J1] [E2|J2]; [congruence| | |exact (S _ _ _ J1 J2)].
    + injection E1 as -> ->. destruct (N _ J2).
    + injection E2 as -> ->. destruct (N _ J1).
  - apply IH. intros a b d J1 J2. apply without_spec in J1, J2. exact (S _ _ _ (proj1 J1) (proj1 J2)).
  - apply IH. intros a b d [E1|J1] [E2|J2]; [congruence| | |exact (S _ _ _ J1 J2)].
    + injection E1 as -> ->. destruct (N _ J2).
    + injection E2 as -> ->. destruct (N _ J1).
  - apply IH. intros a b d J1 J2. apply without_spec in J1, J2. exact (S _ _ _ (proj1 J1) (proj1 J2)).
Qed.
Lemma written_before s W B ns ms : written s W B (ns ++ ms) -> written s W B ns.
Proof.
  revert W B. induction ns as [|x ns IH]; intros W B H; [constructor|]. cbn in H. inversion H; subst; econstructor; eauto.
Qed.

(** ** C65 *)
(** The full property would be that the answer is `true` exactly if the first word can be replaced by the second one
    according to what was declared.  Missing: that the answer is not `true` otherwise (this is refuted below).  Questions
    about words whose chains end differently are the subject of the next theorems: these are not answered with `true` or
    `false`. *)
Theorem C65_declared_reductions_are_confirmed_partial cfg fuel notes w v answers a c' :
  fair cfg -> dbg cfg = true -> written (c_snap context0) (map fst (names_of built_in_words)) [] (notes ++ [Check w v]) ->
  run_session cfg fuel (map line (notes ++ [Check w v])) context0 = Ok (answers ++ [a], c')%list -> Forall2 silent notes answers ->
  (becomes (declared [] notes) w v -> a = txt "true") /\
  (w = v \/ becomes (declared [] notes) v w -> a = txt "false") /\
  (forall m n z, away (declared [] notes) m w z -> away (declared [] notes) n v z -> a = yes_or_no (Nat.ltb n m)).
Proof.
  intros F D W E SI.
  assert (SI' : Forall2 silent (notes ++ [Check w v]) (answers ++ [a])%list) by (apply Forall2_app; [exact SI|constructor; [exact I|constructor]]).
  pose proof (C63_new_interpreters_take_notes cfg fuel _ _ c' F D W E SI') as H. apply replies_last in H.
  assert (S : single (declared [] notes)) by (apply (declared_single _ _ _ _ (fun w u v (J : In (w, u) []) _ => False_ind _ J) (written_before _ _ _ _ _ W))).
  inversion H as [| | | |B w0 v0 m n z ns as' Aw Av _| | | | | | | | | | | |]; subst.
  split; [|split].
  - intros P. pose proof (becomes_away _ _ _ P S _ _ _ Aw Av) as L. apply Nat.ltb_lt in L. rewrite L. reflexivity.
  - intros P. rewrite (proj2 (Nat.ltb_ge _ _)); [reflexivity|]. destruct P as [->|P].
    + destruct (away_one _ _ _ _ _ _ S Aw Av) as [-> _]. constructor.
    + pose proof (becomes_away _ _ _ P S _ _ _ Av Aw). lia.
  - intros m' n' z' Aw' Av'. destruct (away_one _ _ _ _ _ _ S Aw Aw') as [-> _]. destruct (away_one _ _ _ _ _ _ S Av Av') as [-> _]. reflexivity.
Qed.
Print Assumptions C65_declared_reductions_are_confirmed_partial.

(** If the chains of the two words end differently then the answer is the same question about the ends. *)
Theorem C65_other_questions_stay cfg fuel notes pl w v z z' answers a c' :
  fair cfg -> dbg cfg = true -> written (c_snap context0) (map fst (names_of built_in_words)) [] (notes ++ [Doubt pl w v]) ->
  run_session cfg fuel (map line (notes ++ [Doubt pl w v])) context0 = Ok (answers ++ [a], c')%list -> Forall2 silent notes answers ->
  leads_to (declared [] notes) w z -> leads_to (declared [] notes) v z' -> a = joined [z; txt "->"; z'].
Proof.
  intros F D W E SI Lw Lv.
  assert (SI' : Forall2 silent (notes ++ [Doubt pl w v]) (answers ++ [a])%list) by (apply Forall2_app; [exact SI|constructor; [exact I|constructor]]).
  pose proof (C63_new_interpreters_take_notes cfg fuel _ _ c' F D W E SI') as H. apply replies_last in H.
  assert (S : single (declared [] notes)) by (apply (declared_single _ _ _ _ (fun w u v (J : In (w, u) []) _ => False_ind _ J) (written_before _ _ _ _ _ W))).
  inversion H as [| | | | | | | | |B pl0 w0 v0 y y' ns as' Aw Av _| | | | | | |]; subst.
  rewrite (leads_to_one _ _ _ _ S Lw Aw), (leads_to_one _ _ _ _ S Lv Av). reflexivity.
Qed.
Print Assumptions C65_other_questions_stay.

(** So every question about two words is answered in one of three ways, with or without brackets, and nothing is changed
    by it: in a store that is kept as a notebook, for words whose chains end with words that are not reserved. *)
Theorem C65_questions_are_settled cfg fuel c V B (pl : bool) w v m n z z' answer c' :
  fair cfg -> dbg cfg = true -> reachable_with true (links_safe true) c -> c_cache c = empty_cache ->
  notebook (c_snap c) V B -> inquiry (c_snap c) V -> unbracketed (c_snap c) V -> uninvolved (c_snap c) V -> ending (map fst V) B ->
  In w (map fst V) -> In v (map fst V) -> ~ In w reserved -> ~ In v reserved -> ~ In z reserved -> ~ In z' reserved ->
  away B m w z -> away B n v z' ->
  execute cfg fuel (if pl then joined [w; txt "->"; v] else (w ++ txt " (-> " ++ v ++ txt ")")%list) c = Ok (answer, c') ->
  answer = (if text_eqb z z' then yes_or_no (Nat.ltb n m) else joined [z; txt "->"; z']) /\ c_snap c' = c_snap c.
Proof.
  intros F D R K NB IQ UB UI EN Jw Jv Nw Nv Nz Nz' Aw Av E. destruct (nb_arrow _ _ _ NB) as (ar & Ja & Ka).
  destruct (text_eqb_spec z z') as [->|NE].
  - assert (NZ : ~ In z' [txt "let"; txt "forget"; txt "label_of"]).
    { intros J. apply Nz. unfold reserved. cbn in J |- *. tauto. }
    assert (E' : execute cfg fuel (line (if pl then PlainCheck w v else Check w v)) c = Ok (answer, c')) by (destruct pl; exact E).
    destruct (agreed_next cfg fuel F D pl true c c' V B w v m n z' ar answer R NB IQ EN Ja Ka (asked_empty _ _ _ _ R K) Jw Jv Aw Av NZ
      (fun _ => conj UB (conj Nw Nv)) E') as (A & S & _). auto.
  - destruct (doubted_next cfg fuel F D pl true c c' V B w v z z' ar answer R NB IQ UI EN Ja Ka (asked_empty _ _ _ _ R K) Jw Jv
      (away_leads _ _ _ _ Aw) (away_leads _ _ _ _ Av) NE Nz Nz' (fun _ => conj UB (conj Nw Nv)) E) as (A & S & _). auto.
Qed.
Print Assumptions C65_questions_are_settled.

(** ** A session with a new interpreter *)
Definition pets : list note := [Tell (txt "tom") (txt "cat"); Tell (txt "cat") (txt "animal"); Tell (txt "dog") (txt "animal")].
Lemma pets_words : plain_word_b (txt "tom") && plain_word_b (txt "cat") && plain_word_b (txt "animal") && plain_word_b (txt "dog") &&
  unknown_b (c_snap context0) (txt "tom") && unknown_b (c_snap context0) (txt "cat") && unknown_b (c_snap context0) (txt "animal") &&
  unknown_b (c_snap context0) (txt "dog") = true.
Proof. vm_compute. reflexivity. Qed.
Lemma pets_lead w : In w (map txt ["tom"; "cat"; "animal"; "dog"]) -> leads_to (declared [] pets) w (txt "animal").
Proof.
  assert (A : leads_to (declared [] pets) (txt "animal") (txt "animal")) by (apply LeadsHere; intros v J; cbn in J; decompose [or False] J; discriminate).
  assert (C : leads_to (declared [] pets) (txt "cat") (txt "animal")) by (eapply LeadsOn; [|exact A]; cbn; tauto).
  intros [<-|[<-|[<-|[<-|[]]]]]; [|exact C|exact A|].
  - eapply LeadsOn; [|exact C]. cbn. tauto.
  - eapply LeadsOn; [|exact A]. cbn. tauto.
Qed.
Lemma pets_written questions : Forall (fun q => match q with Check w v => In w (map txt ["tom"; "cat"; "animal"; "dog"]) /\ In v (map txt ["tom"; "cat"; "animal"; "dog"]) | _ => False end) questions ->
  written (c_snap context0) (map fst (names_of built_in_words)) [] (pets ++ questions).
Proof.
  intros Q. pose proof pets_words as H. revert H. generalize (c_snap context0). intros s H. do 7 (apply andb_prop in H; destruct H as [H ?]).
  assert (NEW : forall W w, plain_word_b w = true -> unknown_b s w = true -> usable s W w).
  { intros W w P U. destruct (plain_word_ok w P). split; [assumption|]. split; [assumption|]. right. exact (unknown_ok _ _ U). }
  assert (OLD : forall W w, plain_word_b w = true -> In w W -> usable s W w).
  { intros W w P U. destruct (plain_word_ok w P). split; [assumption|]. split; [assumption|]. left. exact U. }
  cbn [app pets].
  apply WrittenTell; [apply NEW; assumption|apply NEW; assumption|intros u []|].
  apply WrittenTell; [apply OLD; [assumption|right; left; reflexivity]|apply NEW; assumption|intros u [E|[]]; discriminate|].
  apply WrittenTell; [apply NEW; assumption|apply OLD; [assumption|right; left; reflexivity]|intros u [E|[E|[]]]; discriminate|].
  match goal with |- written _ (?a :: ?b :: ?c :: ?d :: ?e :: ?f :: ?W) _ _ => generalize W end. intros W.
  change [(txt "dog", txt "animal"); (txt "cat", txt "animal"); (txt "tom", txt "cat")] with (declared [] pets).
  assert (K : forall w, In w (map txt ["tom"; "cat"; "animal"; "dog"]) -> In w (txt "dog" :: txt "animal" :: txt "cat" :: txt "animal" :: txt "tom" :: txt "cat" :: W)).
  { intros w J. cbn in J. cbn [In]. decompose [or False] J; subst; tauto. }
  induction Q as [|q qs Hq _ IH]; [constructor|]. destruct q as [| | |w v| | | | | | | | | | |]; try contradiction. destruct Hq as [Hw Hv].
  apply (WrittenCheck _ _ _ w v (txt "animal")); [exact (K _ Hw)|exact (K _ Hv)|exact (pets_lead _ Hw)|exact (pets_lead _ Hv)| |exact IH].
  intros J. cbn in J. decompose [or False] J; discriminate.
Qed.
Definition pet_questions : list note :=
  [Check (txt "tom") (txt "animal"); Check (txt "animal") (txt "tom"); Check (txt "tom") (txt "tom"); Check (txt "dog") (txt "cat"); Check (txt "tom") (txt "dog")].
Lemma pet_lines : map line (pets ++ pet_questions) =
  map txt ["let (tom (-> cat))"; "let (cat (-> animal))"; "let (dog (-> animal))"; "tom (-> animal)"; "animal (-> tom)"; "tom (-> tom)"; "dog (-> cat)"; "tom (-> dog)"].
Proof. reflexivity. Qed.
Lemma pets_answered : texts_b (run_session cfg0 fuel0 (map line (pets ++ pet_questions)) context0)
  (map txt [""; ""; ""; "true"; "false"; "false"; "false"] ++ [txt "true"])%list = true.
Proof. vm_compute. reflexivity. Qed.
Lemma pets_apart : ~ becomes (declared [] pets) (txt "tom") (txt "dog").
Proof.
  assert (A : forall v, ~ becomes (declared [] pets) (txt "animal") v).
  { intros v H. inversion H as [x y J|x u y J _]; subst; cbn in J; decompose [or False] J; discriminate. }
  assert (C : ~ becomes (declared [] pets) (txt "cat") (txt "dog")).
  { intros H. inversion H as [x y J|x u y J H']; subst; cbn in J.
    - decompose [or False] J; discriminate.
    - assert (u = txt "animal") as -> by (decompose [or False] J; try discriminate; match goal with X : (_, _) = (_, u) |- _ => injection X as <- end; reflexivity). exact (A _ H'). }
  intros H. inversion H as [x y J|x u y J H']; subst; cbn in J.
  - decompose [or False] J; discriminate.
  - assert (u = txt "cat") as -> by (decompose [or False] J; try discriminate; match goal with X : (_, _) = (_, u) |- _ => injection X as <- end; reflexivity). exact (C H').
Qed.
(** The hypotheses are met by this session: the last question is whether `tom` reduces to `dog`. *)
Definition pet_notes : list note := (pets ++ removelast pet_questions)%list.
Lemma pet_notes_last : (pet_notes ++ [Check (txt "tom") (txt "dog")] = pets ++ pet_questions)%list.
Proof. reflexivity. Qed.
Lemma pets_ok : exists c', fair cfg0 /\
  written (c_snap context0) (map fst (names_of built_in_words)) [] (pet_notes ++ [Check (txt "tom") (txt "dog")]) /\
  run_session cfg0 fuel0 (map line (pet_notes ++ [Check (txt "tom") (txt "dog")])) context0 =
    Ok (map txt [""; ""; ""; "true"; "false"; "false"; "false"] ++ [txt "true"], c')%list /\
  Forall2 silent pet_notes (map txt [""; ""; ""; "true"; "false"; "false"; "false"]).
Proof.
  rewrite pet_notes_last. destruct (texts_ok _ _ pets_answered) as (c' & E). exists c'. split; [exact fair0|]. split; [|split; [exact E|repeat constructor]].
  apply pets_written. repeat (constructor; [cbn; tauto|]). constructor.
Qed.
Example C65_example : exists c', fair cfg0 /\
  written (c_snap context0) (map fst (names_of built_in_words)) [] (pet_notes ++ [Check (txt "tom") (txt "dog")]) /\
  run_session cfg0 fuel0 (map line (pet_notes ++ [Check (txt "tom") (txt "dog")])) context0 =
    Ok (map txt [""; ""; ""; "true"; "false"; "false"; "false"] ++ [txt "true"], c')%list /\
  Forall2 silent pet_notes (map txt [""; ""; ""; "true"; "false"; "false"; "false"]).
Proof. exact pets_ok. Qed.

(** After `let (tom (-> cat))`, `let (cat (-> animal))` and `let (dog (-> animal))` it is said that `tom` reduces to `dog`. *)
Theorem C65_undeclared_reductions_are_confirmed_refuted : exists notes w v answers c',
  written (c_snap context0) (map fst (names_of built_in_words)) [] (notes ++ [Check w v]) /\
  run_session cfg0 fuel0 (map line (notes ++ [Check w v])) context0 = Ok (answers ++ [txt "true"], c')%list /\
  Forall2 silent notes answers /\ ~ becomes (declared [] notes) w v.
Proof.
  destruct pets_ok as (c' & _ & W & E & SI). eexists _, _, _, _, c'. split; [exact W|]. split; [exact E|]. split; [exact SI|]. exact pets_apart.
Qed.
Print Assumptions C65_undeclared_reductions_are_confirmed_refuted.

(** ** Words with different ends *)
Definition garden : list note := (pets ++ [Tell (txt "oak") (txt "tree"); Ask (txt "tom")])%list.
Definition garden_replies : list text := map txt [""; ""; ""; ""; "animal"; "animal -> tree"].
Lemma garden_lines : map line (garden ++ [Doubt false (txt "tom") (txt "oak"); Doubt true (txt "oak") (txt "cat")]) =
  map txt ["let (tom (-> cat))"; "let (cat (-> animal))"; "let (dog (-> animal))"; "let (oak (-> tree))"; "tom"; "tom (-> oak)"; "oak -> cat"].
Proof. reflexivity. Qed.
Lemma garden_words : plain_word_b (txt "oak") && plain_word_b (txt "tree") && unknown_b (c_snap context0) (txt "oak") && unknown_b (c_snap context0) (txt "tree") = true.
Proof. vm_compute. reflexivity. Qed.
Lemma garden_leads : leads_to (declared [] garden) (txt "tom") (txt "animal") /\ leads_to (declared [] garden) (txt "cat") (txt "animal") /\
  leads_to (declared [] garden) (txt "oak") (txt "tree").
Proof.
  assert (A : leads_to (declared [] garden) (txt "animal") (txt "animal")) by (apply LeadsHere; intros v J; cbn in J; decompose [or False] J; discriminate).
  assert (T : leads_to (declared [] garden) (txt "tree") (txt "tree")) by (apply LeadsHere; intros v J; cbn in J; decompose [or False] J; discriminate).
  assert (C : leads_to (declared [] garden) (txt "cat") (txt "animal")) by (eapply LeadsOn; [|exact A]; cbn; tauto).
  split; [|split; [exact C|]]; eapply LeadsOn; [|exact C| |exact T]; cbn; tauto.
Qed.
Lemma garden_written : written (c_snap context0) (map fst (names_of built_in_words)) [] (garden ++ [Doubt false (txt "tom") (txt "oak"); Doubt true (txt "oak") (txt "cat")]).
Proof.
  pose proof pets_words as H. pose proof garden_words as H'. revert H H'. generalize (c_snap context0). intros s H H'.
  do 7 (apply andb_prop in H; destruct H as [H ?]). do 3 (apply andb_prop in H'; destruct H' as [H' ?]).
  assert (NEW : forall W w, plain_word_b w = true -> unknown_b s w = true -> usable s W w).
  { intros W w P U. destruct (plain_word_ok w P). split; [assumption|]. split; [assumption|]. right. exact (unknown_ok _ _ U). }
  assert (OLD : forall W w, plain_word_b w = true -> In w W -> usable s W w).
  { intros W w P U. destruct (plain_word_ok w P). split; [assumption|]. split; [assumption|]. left. exact U. }
  assert (NR : forall w, In w (map txt ["tom"; "cat"; "animal"; "oak"; "tree"]) -> ~ In w reserved).
  { intros w J R. cbn in J, R. decompose [or False] J; subst; decompose [or False] R; discriminate. }
  unfold garden. cbn [app pets].
  apply WrittenTell; [apply NEW; assumption|apply NEW; assumption|intros u []|].
  apply WrittenTell; [apply OLD; [assumption|right; left; reflexivity]|apply NEW; assumption|intros u [E|[]]; discriminate|].
  apply WrittenTell; [apply NEW; assumption|apply OLD; [assumption|right; left; reflexivity]|intros u [E|[E|[]]]; discriminate|].
  apply WrittenTell; [apply NEW; assumption|apply NEW; assumption|intros u [E|[E|[E|[]]]]; discriminate|].
  match goal with |- written _ (?a :: ?b :: ?c :: ?d :: ?e :: ?f :: ?g :: ?h :: ?W) _ _ => generalize W end. intros W.
  change [(txt "oak", txt "tree"); (txt "dog", txt "animal"); (txt "cat", txt "animal"); (txt "tom", txt "cat")] with (declared [] garden).
  destruct garden_leads as (Lt & Lc & Lo).
  apply WrittenAsk; [cbn [In]; tauto|].
  apply (WrittenDoubt _ _ _ _ _ _ (txt "animal") (txt "tree")); [cbn [In]; tauto|cbn [In]; tauto|exact Lt|exact Lo|discriminate|apply NR; cbn; tauto|apply NR; cbn; tauto|discriminate|].
  apply (WrittenDoubt _ _ _ _ _ _ (txt "tree") (txt "animal")); [cbn [In]; tauto|cbn [In]; tauto|exact Lo|exact Lc|discriminate|apply NR; cbn; tauto|apply NR; cbn; tauto| |constructor].
  intros _. split; apply NR; cbn; tauto.
Qed.
Lemma garden_answered : texts_b (run_session cfg0 fuel0 (map line (garden ++ [Doubt false (txt "tom") (txt "oak"); Doubt true (txt "oak") (txt "cat")])) context0)
  (garden_replies ++ [txt "tree -> animal"])%list = true.
Proof. vm_compute. reflexivity. Qed.
(** After these lines, `oak -> cat` is answered with `tree -> animal`. *)
Definition garden_notes : list note := (garden ++ [Doubt false (txt "tom") (txt "oak")])%list.
Example C65_other_questions_example : exists c', fair cfg0 /\
  written (c_snap context0) (map fst (names_of built_in_words)) [] (garden_notes ++ [Doubt true (txt "oak") (txt "cat")]) /\
  run_session cfg0 fuel0 (map line (garden_notes ++ [Doubt true (txt "oak") (txt "cat")])) context0 = Ok (garden_replies ++ [txt "tree -> animal"], c')%list /\
  Forall2 silent garden_notes garden_replies /\ leads_to (declared [] garden_notes) (txt "oak") (txt "tree") /\ leads_to (declared [] garden_notes) (txt "cat") (txt "animal").
Proof.
  assert (G : (garden_notes ++ [Doubt true (txt "oak") (txt "cat")] = garden ++ [Doubt false (txt "tom") (txt "oak"); Doubt true (txt "oak") (txt "cat")])%list) by reflexivity.
  rewrite G. destruct (texts_ok _ _ garden_answered) as (c' & E). exists c'. split; [exact fair0|]. split; [exact garden_written|]. split; [exact E|].
  split; [repeat constructor|]. destruct garden_leads as (_ & Lc & Lo). auto.
Qed.
(** A single question: `tom (-> assoc)` after `let (tom (-> cat))`. *)
Lemma session_first cfg fuel l ls c rs c' : run_session cfg fuel (l :: ls) c = Ok (rs, c') ->
  exists a rs' c1, rs = a :: rs' /\ execute cfg fuel l c = Ok (a, c1) /\ run_session cfg fuel ls c1 = Ok (rs', c').
Proof.
  intros E. cbn [run_session] in E. destruct (execute cfg fuel l c) as [[a c1]| | |]; try discriminate. cbn [obind] in E.
  destruct (run_session cfg fuel ls c1) as [[rs' c2]| | |] eqn:E'; try discriminate. injection E as <- <-. exists a, rs', c1. auto.
Qed.
Lemma single_answered : texts_b (run_session cfg0 fuel0 (map line [Tell (txt "tom") (txt "cat"); Doubt false (txt "tom") (txt "assoc")]) context0) (map txt [""; "cat -> assoc"]) = true.
Proof. vm_compute. reflexivity. Qed.
Example C65_single_question_example : exists c V B c', fair cfg0 /\ reachable_with true (links_safe true) c /\ c_cache c = empty_cache /\
  notebook (c_snap c) V B /\ inquiry (c_snap c) V /\ unbracketed (c_snap c) V /\ uninvolved (c_snap c) V /\ ending (map fst V) B /\
  In (txt "tom") (map fst V) /\ In (txt "assoc") (map fst V) /\ ~ In (txt "tom") reserved /\ ~ In (txt "assoc") reserved /\ ~ In (txt "cat") reserved /\
  away B 1 (txt "tom") (txt "cat") /\ away B 0 (txt "assoc") (txt "assoc") /\
  execute cfg0 fuel0 (txt "tom" ++ txt " (-> " ++ txt "assoc" ++ txt ")")%list c = Ok (txt "cat -> assoc", c').
Proof.
  destruct (texts_ok _ _ single_answered) as (c2 & E). cbn [map] in E. apply session_first in E. destruct E as (a & rs & c1 & X & E1 & E).
  injection X as <- <-. apply session_first in E. destruct E as (b & rs & c3 & X & E2 & _). injection X as <- _.
  pose proof sample_words as H. do 6 (apply andb_prop in H; destruct H as [H ?]).
  assert (NEW : forall W w, plain_word_b w = true -> unknown_b (c_snap context0) w = true -> usable (c_snap context0) W w).
  { intros W w P U. destruct (plain_word_ok w P). split; [assumption|]. split; [assumption|]. right. exact (unknown_ok _ _ U). }
  destruct (told_next cfg0 fuel0 fair0 eq_refl context0 c1 _ [] (txt "tom") (txt "cat") context0_linked context0_notebook) as
    (R1 & K1 & _ & _ & x & y & NB & Q1 & _ & Q3 & Q4); [apply NEW; assumption|apply NEW; assumption|intros u []|exact E1|].
  assert (CT : txt "cat" <> txt "tom") by discriminate.
  eexists c1, _, _, c3. split; [exact fair0|]. split; [exact R1|]. split; [exact K1|]. split; [exact NB|]. split; [exact (Q1 context0_inquiry)|].
  split; [exact (Q3 context0_unbracketed)|]. split; [exact (Q4 context0_uninvolved)|].
  split; [exact (ending_told [] (txt "tom") (txt "cat") (txt "cat") _ (ending_empty _) (LeadsHere [] (txt "cat") (fun _ J => J)) CT)|].
  split; [left; reflexivity|]. split; [right; right; unfold names_of; cbn; tauto|].
  assert (NR : forall w, In w (map txt ["tom"; "assoc"; "cat"]) -> ~ In w reserved).
  { intros w J R. cbn in J, R. decompose [or False] J; subst; decompose [or False] R; discriminate. }
  split; [apply NR; cbn; tauto|]. split; [apply NR; cbn; tauto|]. split; [apply NR; cbn; tauto|].
  split; [|split; [|exact E2]].
  - eapply AwayOn; [left; reflexivity|]. apply AwayHere. intros v [E|[]]. discriminate.
  - apply AwayHere. intros v [E|[]]. discriminate.
Qed.
