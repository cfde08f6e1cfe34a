(** C69: expressions in which some brackets are left out, in sessions of declarations. *)
From Verif Require Import Start Lexer LexerSpec Snapshot Search Context StoreSpec NameSpec StoreInv StoreFacts MapFacts AstFacts History Steps Keep Sim Meaning Settled Links CacheLife Displays Sample Witness NameWitness
  Spelled Asking Unruled Answers Replies Checks Phrases Groups Flat Outlines Notebook Notes PropertiesAnswers PropertiesWords PropertiesUttered PropertiesNotebook PropertiesChecks PropertiesPhrases PropertiesGroups.
From Coq Require Import String List Relations PeanoNat Bool Lia.
Import ListNotations.
Local Open Scope string_scope.

(** ** C69 *)
(** In a store that is kept as a notebook, an expression made of words and groups is answered with the words at the ends
    of the chains of its words, in the same order and with some brackets, if each group of three parts or more has a word
    among its parts.  If not then it is refused.  Nothing is changed. *)
Theorem C69_words_tell_groups_apart cfg fuel c V B os answer c' :
  fair cfg -> dbg cfg = true -> reachable_with true (links_safe true) c -> c_cache c = empty_cache ->
  notebook (c_snap c) V B -> phrasing (c_snap c) V -> unbracketed (c_snap c) V -> ending (map fst V) B ->
  sized (Several os) -> Forall (fun w => In w (map fst V) /\ common B w) (all_terms os) ->
  execute cfg fuel (outlined os) c = Ok (answer, c') ->
  (unambiguous (Several os) -> exists vs, Forall2 (leads_to B) (all_terms os) vs /\ bare answer = joined vs) /\
  (~ unambiguous (Several os) ->
     answer = txt "Ambiguity due to lack of precedence or associativity defined for the symbols in that expression.") /\
  c_snap c' = c_snap c.
Proof.
  intros F D R K NB PH UB EN SZ WS E. destruct (nb_arrow _ _ _ NB) as (ar & Ja & Ka).
  destruct (expressed_next cfg fuel F D (outlined os) (unambiguous (Several os)) c c' V B (all_terms os) ar answer R NB PH EN Ja Ka (asked_empty _ _ _ _ R K))
    as ([(vs & A & X & OK)|[A OK]] & S & _); [right; right; exists os; auto|exact WS|exact E| |].
  - split; [eauto|]. split; [contradiction|exact S].
  - split; [contradiction|]. split; [intros _; exact A|exact S].
Qed.
Print Assumptions C69_words_tell_groups_apart.

(** In a session with a new interpreter, whatever was declared, asked and evaluated before. *)
Theorem C69_words_tell_groups_apart_in_sessions cfg fuel notes os answers a c' :
  fair cfg -> dbg cfg = true -> written (c_snap context0) (map fst (names_of built_in_words)) [] (notes ++ [Outline os]) ->
  run_session cfg fuel (map line (notes ++ [Outline os])) context0 = Ok (answers ++ [a], c')%list -> Forall2 silent notes answers ->
  (unambiguous (Several os) -> exists vs, Forall2 (leads_to (declared [] notes)) (all_terms os) vs /\ bare a = joined vs) /\
  (~ unambiguous (Several os) ->
     a = txt "Ambiguity due to lack of precedence or associativity defined for the symbols in that expression.").
Proof.
  intros F D W E SI.
  assert (SI' : Forall2 silent (notes ++ [Outline os]) (answers ++ [a])%list) by (apply Forall2_app; [exact SI|constructor; [exact I|constructor]]).
  pose proof (C63_new_interpreters_take_notes cfg fuel _ _ c' F D W E SI') as H. apply replies_last in H.
  inversion H; subst; split; try contradiction; eauto.
Qed.
Print Assumptions C69_words_tell_groups_apart_in_sessions.

(** Whether an expression is refused can be told from its brackets alone. *)
Fixpoint unambiguous_b (o : outline) : bool :=
  match o with
  | Term _ => true
  | Several os => (Nat.eqb (List.length os) 2 || existsb is_term os) && forallb unambiguous_b os
  end.
Lemma unambiguous_ok : (forall o, unambiguous_b o = true <-> unambiguous o) /\
  forall os, forallb unambiguous_b os = true <-> forall o, In o os -> unambiguous o.
Proof.
  apply outline_both.
  - intros w. split; [constructor|reflexivity].
  - intros os IH. cbn [unambiguous_b]. rewrite andb_true_iff, orb_true_iff, Nat.eqb_eq, some_term, IH. split.
    + intros [A B]. constructor; assumption.
    + intros H. inversion H; auto.
  - split; [intros _ o []|reflexivity].
  - intros o os Ho IH. cbn [forallb]. rewrite andb_true_iff, Ho, IH. split.
    + intros [A B] x [<-|J]; auto.
    + intros H. split; [apply H; left; reflexivity|]. intros x J. apply H. right. exact J.
Qed.
(** So every expression is answered or refused. *)
Theorem C69_answered_or_refused os : unambiguous (Several os) \/ ~ unambiguous (Several os).
Proof.
  destruct (unambiguous_b (Several os)) eqn:E; [left|right]; rewrite <- (proj1 unambiguous_ok); congruence.
Qed.
Print Assumptions C69_answered_or_refused.
(** Sequences of words and expressions in which all brackets are written (Spelled.v) are never refused. *)
Fixpoint outline_of (p : phrase) : outline := match p with Word w => Term w | Both a b => Several [outline_of a; outline_of b] end.
Theorem C69_extremes_are_answered : (forall ws, ws <> [] -> outlined (map Term ws) = joined ws /\ unambiguous (Several (map Term ws))) /\
  forall p, drawn (outline_of p) = bracketed p /\ unambiguous (outline_of p).
Proof.
  split.
  - intros ws N. split; [unfold outlined; rewrite map_map; cbn [drawn]; rewrite map_id; reflexivity|]. destruct ws as [|w ws]; [congruence|].
    constructor; [right; exists w; left; reflexivity|]. intros o J. apply in_map_iff in J. destruct J as (v & <- & _). constructor.
  - induction p as [w|a [Da Ua] b [Db Ub]]; [split; [reflexivity|constructor]|]. split.
    + cbn [outline_of drawn map joined bracketed]. rewrite Da, Db. cbn. rewrite <- app_assoc. reflexivity.
    + constructor; [left; reflexivity|]. intros o [<-|[<-|[]]]; assumption.
Qed.
Print Assumptions C69_extremes_are_answered.

(** ** A session with a new interpreter *)
(** [(tom oak) tom (oak tom oak)] and [(tom oak) (tom oak) (tom oak)] *)
Definition thicket : list outline :=
  [Several [Term (txt "tom"); Term (txt "oak")]; Term (txt "tom"); Several [Term (txt "oak"); Term (txt "tom"); Term (txt "oak")]].
Definition hedge : list outline :=
  let pair := Several [Term (txt "tom"); Term (txt "oak")] in [pair; pair; pair].
Definition grove : list note := [Tell (txt "tom") (txt "cat"); Tell (txt "oak") (txt "tree")].
Lemma grove_lines : map line (grove ++ [Outline hedge; Outline thicket]) =
  map txt ["let (tom (-> cat))"; "let (oak (-> tree))"; "(tom oak) (tom oak) (tom oak)"; "(tom oak) tom (oak tom oak)"].
Proof. reflexivity. Qed.
Lemma grove_sized : sized (Several thicket) /\ sized (Several hedge).
Proof.
  split; (apply SizedSeveral; [cbn; lia|]); intros o J; cbn in J; decompose [or False] J; subst;
    try apply SizedTerm; (apply SizedSeveral; [cbn; lia|]); intros o J'; cbn in J'; decompose [or False] J'; subst; apply SizedTerm.
Qed.
Lemma grove_kinds : unambiguous (Several thicket) /\ ~ unambiguous (Several hedge).
Proof. rewrite <- !(proj1 unambiguous_ok). split; [reflexivity|discriminate]. Qed.
Lemma grove_written os : sized (Several os) -> Forall (fun w => w = txt "tom" \/ w = txt "oak") (all_terms os) ->
  written (c_snap context0) (map fst (names_of built_in_words)) [] ((grove ++ [Outline hedge]) ++ [Outline os]).
Proof.
  pose proof tom_words as H. pose proof garden_words as H'. revert H H'. generalize (c_snap context0). intros s H H'.
  do 3 (apply andb_prop in H; destruct H as [H ?]). do 3 (apply andb_prop in H'; destruct H' as [H' ?]).
  assert (NEW : forall W w, plain_word_b w = true -> unknown_b s w = true -> usable s W w).
  { intros W w P U. destruct (plain_word_ok w P). split; [assumption|]. split; [assumption|]. right. exact (unknown_ok _ _ U). }
  intros SZ WS. cbn [app grove].
  apply WrittenTell; [apply NEW; assumption|apply NEW; assumption|intros u []|].
  apply WrittenTell; [apply NEW; assumption|apply NEW; assumption|intros u [E|[]]; discriminate|].
  match goal with |- written _ (?a :: ?b :: ?c :: ?d :: ?W) _ _ => generalize W end. intros W.
  assert (K : forall ws, Forall (fun w => w = txt "tom" \/ w = txt "oak") ws ->
    Forall (fun w => In w (txt "oak" :: txt "tree" :: txt "tom" :: txt "cat" :: W) /\ common [(txt "oak", txt "tree"); (txt "tom", txt "cat")] w) ws).
  { intros ws. apply Forall_impl. intros w J. split; [destruct J as [-> | ->]; cbn [In]; tauto|]. apply common_all.
    - intros u v [E|[E|[]]] R; injection E as _ <-; cbn in R; decompose [or False] R; discriminate.
    - intros R. destruct J as [-> | ->]; cbn in R; decompose [or False] R; discriminate. }
  apply WrittenOutline; [apply grove_sized|apply K; cbn; repeat (apply Forall_cons; [auto|]); apply Forall_nil|].
  apply WrittenOutline; [exact SZ|apply K, WS|constructor].
Qed.
Lemma grove_answered : texts_b (run_session cfg0 fuel0 (map line ((grove ++ [Outline hedge]) ++ [Outline thicket])) context0)
  (map txt [""; ""; "Ambiguity due to lack of precedence or associativity defined for the symbols in that expression."] ++ [txt "(cat tree) cat tree cat tree"])%list = true.
Proof. vm_compute. reflexivity. Qed.
(** The first expression is refused and the second one answered. *)
Example C69_example : exists c', fair cfg0 /\
  written (c_snap context0) (map fst (names_of built_in_words)) [] ((grove ++ [Outline hedge]) ++ [Outline thicket]) /\
  run_session cfg0 fuel0 (map line ((grove ++ [Outline hedge]) ++ [Outline thicket])) context0 =
    Ok (map txt [""; ""; "Ambiguity due to lack of precedence or associativity defined for the symbols in that expression."] ++ [txt "(cat tree) cat tree cat tree"], c')%list /\
  Forall2 silent (grove ++ [Outline hedge]) (map txt [""; ""; "Ambiguity due to lack of precedence or associativity defined for the symbols in that expression."]) /\
  unambiguous (Several thicket) /\ ~ unambiguous (Several hedge).
Proof.
  destruct (texts_ok _ _ grove_answered) as (c' & E). exists c'. split; [exact fair0|].
  split; [apply grove_written; [apply grove_sized|]; cbn; repeat (apply Forall_cons; [auto|]); apply Forall_nil|]. split; [exact E|]. split; [|exact grove_kinds].
  constructor; [reflexivity|]. constructor; [reflexivity|]. constructor; [exact I|constructor].
Qed.
(** The hypotheses of the first theorem are met by a new interpreter that is told nothing: [assoc (assoc assoc) assoc]. *)
Definition assocs : list outline := [Term (txt "assoc"); Several [Term (txt "assoc"); Term (txt "assoc")]; Term (txt "assoc")].
Lemma assocs_answered : texts_b (run_session cfg0 fuel0 [outlined assocs] context0) [txt "assoc assoc assoc assoc"] = true.
Proof. vm_compute. reflexivity. Qed.
Example C69_single_example : exists c', fair cfg0 /\ reachable_with true (links_safe true) context0 /\ c_cache context0 = empty_cache /\
  notebook (c_snap context0) (names_of built_in_words) [] /\ phrasing (c_snap context0) (names_of built_in_words) /\
  unbracketed (c_snap context0) (names_of built_in_words) /\ ending (map fst (names_of built_in_words)) [] /\
  sized (Several assocs) /\ Forall (fun w => In w (map fst (names_of built_in_words)) /\ common [] w) (all_terms assocs) /\
  execute cfg0 fuel0 (outlined assocs) context0 = Ok (txt "assoc assoc assoc assoc", c').
Proof.
  destruct (texts_ok _ _ assocs_answered) as (c2 & E). apply session_first in E. destruct E as (a & rs & c1 & X & E & _). injection X as <- _.
  exists c1. split; [exact fair0|]. split; [exact context0_linked|]. split; [reflexivity|]. split; [exact context0_notebook|]. split; [exact context0_phrasing|].
  split; [exact context0_unbracketed|]. split; [exact (ending_empty _)|]. split; [|split; [|exact E]].
  - apply SizedSeveral; [cbn; lia|]. intros o J; cbn in J; decompose [or False] J; subst; try apply SizedTerm.
    apply SizedSeveral; [cbn; lia|]. intros o J'; cbn in J'; decompose [or False] J'; subst; apply SizedTerm.
  - assert (K : In (txt "assoc") (map fst (names_of built_in_words)) /\ common [] (txt "assoc")).
    { split; [cbn; tauto|]. intros z [<-|P] R; [cbn in R; decompose [or False] R; discriminate|].
      inversion P as [x y J|x u y J _]; destruct J. }
    cbn. repeat (apply Forall_cons; [exact K|]). apply Forall_nil.
Qed.
