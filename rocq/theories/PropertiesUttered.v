(** C62: commands in which every pair is bracketed are read as they are written.  C59, C41: what such
    declarations and definitions do. *)
From Verif Require Import Lexer LexerSpec LexerFacts Start Parser Context StoreSpec NameSpec FrameSpec MapFacts AstFacts StoreFacts StoreInv RangeFacts History Steps Keep
  Sample Witness NameWitness Quiet Frames Links Build Displays Reductions Declare Define Words Said OwnTrees Spoken Answers Replies Spelled Uttered PropertiesFrames
  PropertiesReductions PropertiesDefine PropertiesSequences PropertiesAnswers PropertiesWords.
From Coq Require Import String List Bool PeanoNat Relations.
Import ListNotations.
Local Open Scope string_scope.

(** ** C62 *)
(** The text [spelled p] writes the words of [p] with brackets around every pair within another and single
    spaces between the halves.  Whatever the context, the tree that is read from it has exactly the words
    of [p] for leaves and the pairs of [p] for branches: precedence, associativity and what the words stand for
    play no part (debug builds). *)
Theorem C62_bracketed_commands_are_read_as_written cfg fuel p c u c' :
  dbg cfg = true -> proper p -> ast_from_expression cfg fuel (spelled p) c = Ok (Val u, c') -> says p u.
Proof. intros D. exact (spelled_says cfg fuel D p c u c'). Qed.
Print Assumptions C62_bracketed_commands_are_read_as_written.

(** The same for release builds, when the debug build does not stop at an assertion. *)
Theorem C62_release_builds_read_bracketed_commands_as_written f fuel p c u c' :
  proper p -> (forall site, ast_from_expression (debug f) fuel (spelled p) c <> Panic site) ->
  ast_from_expression (release f) fuel (spelled p) c = Ok (Val u, c') -> says p u.
Proof.
  intros W P E. destruct (ast_from_expression_like f fuel (spelled p) c) as [(site & _ & H)|H]; [destruct (P site H)|].
  rewrite <- H in E. exact (C62_bracketed_commands_are_read_as_written (debug f) fuel p c u c' eq_refl W E).
Qed.
Print Assumptions C62_release_builds_read_bracketed_commands_as_written.

(** What is evaluated: if no concept is composed of what two words paired with each other stand for, and the
    words are labels of undivided concepts or unknown, then the tree that is evaluated has a leaf for each word,
    for what the word stands for or for something new if it stands for nothing; none of them is taken for a
    variable, and no pair is taken for a concept.  For every history without replaced or removed
    compositions, hash order and amount of fuel (debug builds). *)
Theorem C62_unjoined_words_stay_apart cfg fuel p c answer c' :
  fair cfg -> dbg cfg = true -> reachable_with true (links_safe true) c -> unjoined (c_snap c) p ->
  execute cfg fuel (spelled p) c = Ok (answer, c') -> (forall e, answer <> error_text e) ->
  exists t c1, read_tree cfg fuel (spelled p) c = Ok (Val t, c1) /\ faithful (c_snap c) p t.
Proof.
  intros F D R U E NE. destruct (uttered cfg fuel F D c R p answer c' U E NE) as (u & c0 & t & c1 & _ & _ & Rt & FA & _). eauto.
Qed.
Print Assumptions C62_unjoined_words_stay_apart.

(** ** C59 *)
(** The command `let (w1 (-> w2))`, written with these brackets and single spaces, is answered without an error:
    then the two words are names afterwards, of concepts the first of which reduces to the second; a word that leads
    to a concept that existed before led to it before; and nothing else reduces to something else than before. *)
Definition declaration (w1 w2 : text) : phrase := Both (Word (txt "let")) (Both (Word w1) (Both (Word (txt "->")) (Word w2))).
Theorem C59_written_declarations_relate_what_the_words_name cfg fuel c c' w1 w2 :
  fair cfg -> dbg cfg = true -> reachable_with true (links_safe true) c ->
  unjoined (c_snap c) (declaration w1 w2) ->
  names_built_in (c_snap c) (txt "let") CLet -> names_built_in (c_snap c) (txt "->") CReduction ->
  (forall n y, found_under (c_snap c) w1 n -> ~ lists_reduction_from (c_snap c) y n) ->
  execute cfg fuel (spelled (declaration w1 w2)) c = Ok ([], c') ->
  exists x y, found_under (c_snap c') w1 x /\ found_under (c_snap c') w2 y /\ reduces (c_snap c') x y /\
    (lt x (size (c_snap c)) -> found_under (c_snap c) w1 x) /\ (lt y (size (c_snap c)) -> found_under (c_snap c) w2 y) /\
    only_reduction_of x (c_snap c) (c_snap c').
Proof. intros F D R. exact (uttered_declaration cfg fuel F D c R (txt "let") (txt "->") w1 w2 c'). Qed.
Print Assumptions C59_written_declarations_relate_what_the_words_name.

(** ** C41 *)
(** The command `let (w1 (:= (w2 w3)))` in the same way.  Missing for the full claim: words that stand for
    compositions already, and pairs that are composed already, for which it is false (PropertiesCommand.v). *)
Definition definition (w1 w2 w3 : text) : phrase :=
  Both (Word (txt "let")) (Both (Word w1) (Both (Word (txt ":=")) (Both (Word w2) (Word w3)))).
Theorem C41_written_definitions_relate_what_the_words_name_partial cfg fuel c c' w1 w2 w3 :
  fair cfg -> dbg cfg = true -> reachable_with true (links_safe true) c ->
  unjoined (c_snap c) (definition w1 w2 w3) ->
  names_built_in (c_snap c) (txt "let") CLet -> names_built_in (c_snap c) (txt ":=") CDefine ->
  execute cfg fuel (spelled (definition w1 w2 w3)) c = Ok ([], c') ->
  exists x y z, found_under (c_snap c') w1 x /\ found_under (c_snap c') w2 y /\ found_under (c_snap c') w3 z /\
    composed (c_snap c') x y z /\
    (lt x (size (c_snap c)) -> found_under (c_snap c) w1 x) /\ (lt y (size (c_snap c)) -> found_under (c_snap c) w2 y) /\
    (lt z (size (c_snap c)) -> found_under (c_snap c) w3 z) /\
    only_composition_of x (c_snap c) (c_snap c').
Proof. intros F D R. exact (uttered_definition cfg fuel F D c R (txt "let") (txt ":=") w1 w2 w3 c'). Qed.
Print Assumptions C41_written_definitions_relate_what_the_words_name_partial.

(** ** The hypotheses are met *)
(** In the store of C58 (PropertiesAnswers.v), with [c] (63) and [d] (66) known and [z] not. *)
Definition labels_b (s : snapshot) (w : text) (n : nat) : bool := undivided_b s n && carries s n w.
Lemma labels_ok s w n l : means_b s w n l = true -> labels_b s w n = true -> labels s w.
Proof.
  intros M H m X. apply means_ok in M. destruct M as (_ & _ & _ & U). rewrite (U m X).
  apply andb_prop in H. destruct H as [H1 H2]. destruct (undivided_ok _ _ H1) as [A B]. split; [exact A|]. split; [exact B|apply carries_label_of, H2].
Qed.
Definition plain_word_b (w : text) : bool :=
  negb (text_eqb w []) && forallb (fun c => match class_of c with ClSymbol => true | _ => false end) w && negb (is_variable_symbol w).
Lemma plain_word_ok w : plain_word_b w = true -> word w /\ ~ underscored w.
Proof.
  intros H. apply andb_prop in H. destruct H as [H H3]. apply andb_prop in H. destruct H as [H1 H2]. split; [split|].
  - intros ->. discriminate.
  - intros c I. rewrite forallb_forall in H2. apply H2 in I. destruct (class_of c); try discriminate; reflexivity.
  - intros V. apply Names.underscored_spec in V. rewrite V in H3. discriminate.
Qed.
(** A known word with what it stands for, and the compositions it is found by; or an unknown one. *)
Definition fits_b (s : snapshot) (w : text) (k : option (nat * list nat)) : bool :=
  plain_word_b w && match k with Some (n, l) => means_b s w n l && labels_b s w n | None => unknown_b s w end.
Definition meaning_ok (s : snapshot) (w : text) (k : option (nat * list nat)) : Prop :=
  match k with Some (n, _) => forall m, found_under s w m <-> m = n | None => forall m, ~ found_under s w m end.
Lemma fits_ok s w k : fits_b s w k = true -> unjoined s (Word w) /\ meaning_ok s w k.
Proof.
  intros H. apply andb_prop in H. destruct H as [H1 H2]. destruct (plain_word_ok w H1) as [W NU]. destruct k as [[n l]|].
  - apply andb_prop in H2. destruct H2 as [M L]. split; [split; [exact W|split; [exact NU|exact (labels_ok _ _ _ _ M L)]]|].
    apply means_ok in M. destruct M as (_ & _ & Fu & U). intros m. split; [apply U|intros ->; exact Fu].
  - pose proof (unknown_ok _ _ H2) as U. split; [split; [exact W|split; [exact NU|intros m X; destruct (U m X)]]|exact U].
Qed.
Lemma not_label s v n : (forall m, found_under s v m <-> m = n) -> match built_in_of s n with Some CLabel => false | _ => true end = true ->
  forall x, found_under s v x -> ~ built_in s x CLabel.
Proof.
  intros M H x X (c & L & K). apply M in X. subst x. unfold built_in_of in H. rewrite L, K in H. discriminate.
Qed.
Definition names_b (s : snapshot) (w : text) (n : nat) (l : list nat) (cc : cct) : bool :=
  means_b s w n l && match built_in_of s n with Some x => cct_eqb x cc | None => false end.
Lemma names_ok s w n l cc : names_b s w n l cc = true -> names_built_in s w cc.
Proof.
  intros H. apply andb_prop in H. destruct H as [M H]. apply means_ok in M. destruct M as (_ & _ & Fu & U). exists n. split.
  - unfold built_in_of in H. destruct (lookup s n) as [c|] eqn:L; [|discriminate]. destruct (c_spec c) as [x| |] eqn:K; try discriminate.
    exists c. split; [exact L|]. destruct x, cc; try discriminate H; exact K.
  - intros m. split; [apply U|intros ->; exact Fu].
Qed.

(** Nothing is composed of the two concepts. *)
Definition apart_b (s : snapshot) (x y : nat) : bool :=
  forallb (fun z => match composition_of s z with Some (a, b) => negb (Nat.eqb a x && Nat.eqb b y) | None => true end) (ids s).
Lemma apart_ok s x y : apart_b s x y = true -> forall z, ~ composed s z x y.
Proof.
  intros H z C. unfold apart_b in H. rewrite forallb_forall in H. assert (I : In z (ids s)).
  { destruct C as (c & fv & bv & red & L & _). exact (known_id _ _ _ L). }
  apply H in I. apply composition_of_composed in C. rewrite C, !Nat.eqb_refl in I. discriminate.
Qed.
Definition vocabulary := list (text * (nat * list nat)).
Definition halves_b (s : snapshot) (env : vocabulary) (a b : phrase) : bool :=
  match a, b with
  | Word v, Word w =>
    match aget text_eqb v env with
    | Some (n, _) => match built_in_of s n with Some CLabel => false | _ => true end &&
      match aget text_eqb w env with Some (m, _) => apart_b s n m | None => true end
    | None => true
    end
  | _, _ => true
  end.
Fixpoint unjoined_b (s : snapshot) (env : vocabulary) (p : phrase) : bool :=
  match p with
  | Word w => fits_b s w (aget text_eqb w env)
  | Both a b => unjoined_b s env a && unjoined_b s env b && halves_b s env a b
  end.
Lemma unjoined_ok s env p : unjoined_b s env p = true -> unjoined s p.
Proof.
  induction p as [w|a IHa b IHb]; cbn [unjoined_b]; intros H.
  - exact (proj1 (fits_ok _ _ _ H)).
  - apply andb_prop in H. destruct H as [H H3]. apply andb_prop in H. destruct H as [H1 H2]. split; [exact (IHa H1)|]. split; [exact (IHb H2)|].
    destruct a as [v|]; [|exact I]. destruct b as [w|]; [|exact I]. cbn [unjoined_b] in H1, H2.
    apply fits_ok in H1. apply fits_ok in H2. destruct H1 as [_ M1], H2 as [_ M2]. cbn [halves_b] in H3.
    destruct (aget text_eqb v env) as [[n l]|].
    + apply andb_prop in H3. destruct H3 as [H3 H4]. split; [|exact (not_label _ _ _ M1 H3)].
      intros x y z X Y. destruct (aget text_eqb w env) as [[m k]|].
      * apply M1 in X. apply M2 in Y. subst x y. apply apart_ok, H4.
      * destruct (M2 y Y).
    + split; [intros x y z X; destruct (M1 x X)|intros x X; destruct (M1 x X)].
Qed.

Definition chain_words : vocabulary :=
  [(txt "let", (11, [10])); (txt "->", (8, [7])); (txt ":=", (5, [4])); (txt "c", (63, [62])); (txt "d", (66, [65]))].
Lemma chain_unjoined :
  unjoined_b (c_snap chain_context) chain_words (declaration (txt "c") (txt "z")) &&
  unjoined_b (c_snap chain_context) chain_words (definition (txt "d") (txt "c") (txt "z")) &&
  names_b (c_snap chain_context) (txt "let") 11 [10] CLet && names_b (c_snap chain_context) (txt "->") 8 [7] CReduction &&
  names_b (c_snap chain_context) (txt ":=") 5 [4] CDefine = true.
Proof. vm_compute. reflexivity. Qed.
Lemma declare_z_spelled : spelled (declaration (txt "c") (txt "z")) = declare_z.
Proof. vm_compute. reflexivity. Qed.
Lemma define_d_spelled : spelled (definition (txt "d") (txt "c") (txt "z")) = define_d.
Proof. vm_compute. reflexivity. Qed.
Lemma chain_vocabulary :
  unjoined (c_snap chain_context) (declaration (txt "c") (txt "z")) /\
  unjoined (c_snap chain_context) (definition (txt "d") (txt "c") (txt "z")) /\
  names_built_in (c_snap chain_context) (txt "let") CLet /\ names_built_in (c_snap chain_context) (txt "->") CReduction /\
  names_built_in (c_snap chain_context) (txt ":=") CDefine.
Proof.
  generalize chain_unjoined. generalize (c_snap chain_context). intros s K. do 4 (apply andb_prop in K; destruct K as [K ?]).
  split; [eapply unjoined_ok; exact K|]. split; [eapply unjoined_ok; eassumption|]. repeat split; try (eapply names_ok; eassumption).
Qed.
Example C59_written_case : exists c', fair cfg0 /\ dbg cfg0 = true /\ reachable_with true (links_safe true) chain_context /\
  unjoined (c_snap chain_context) (declaration (txt "c") (txt "z")) /\
  names_built_in (c_snap chain_context) (txt "let") CLet /\ names_built_in (c_snap chain_context) (txt "->") CReduction /\
  (forall n y, found_under (c_snap chain_context) (txt "c") n -> ~ lists_reduction_from (c_snap chain_context) y n) /\
  execute cfg0 fuel0 (spelled (declaration (txt "c") (txt "z"))) chain_context = Ok ([], c').
Proof.
  destruct C59_case as (u & c0 & a & b & c' & _ & _ & _ & _ & _ & _ & _ & _ & _ & _ & U & _ & E).
  destruct chain_vocabulary as (V1 & _ & N1 & N2 & _). exists c'. rewrite declare_z_spelled.
  split; [exact fair0|]. split; [reflexivity|]. split; [exact chain_context_reachable|]. auto.
Qed.
Example C41_written_case : exists c', fair cfg0 /\ dbg cfg0 = true /\ reachable_with true (links_safe true) chain_context /\
  unjoined (c_snap chain_context) (definition (txt "d") (txt "c") (txt "z")) /\
  names_built_in (c_snap chain_context) (txt "let") CLet /\ names_built_in (c_snap chain_context) (txt ":=") CDefine /\
  execute cfg0 fuel0 (spelled (definition (txt "d") (txt "c") (txt "z"))) chain_context = Ok ([], c').
Proof.
  destruct C41_words_case as (u & c0 & a & b & l & r & c' & _ & _ & _ & _ & _ & _ & _ & _ & _ & _ & _ & _ & _ & E).
  destruct chain_vocabulary as (_ & V2 & N1 & _ & N3). exists c'. rewrite define_d_spelled.
  split; [exact fair0|]. split; [reflexivity|]. split; [exact chain_context_reachable|]. auto.
Qed.
(** The first of the two commands is also read and answered as C62 supposes. *)
Example C62_case : exists u c0 c', dbg cfg0 = true /\ proper (declaration (txt "c") (txt "z")) /\
  unjoined (c_snap chain_context) (declaration (txt "c") (txt "z")) /\
  ast_from_expression cfg0 fuel0 (spelled (declaration (txt "c") (txt "z"))) chain_context = Ok (Val u, c0) /\
  execute cfg0 fuel0 (spelled (declaration (txt "c") (txt "z"))) chain_context = Ok ([], c') /\ (forall e, ([] : text) <> error_text e).
Proof.
  destruct C59_case as (u & c0 & a & b & c' & _ & _ & _ & E0 & _ & _ & _ & _ & _ & _ & U & _ & E).
  destruct chain_vocabulary as (V1 & _). exists u, c0, c'. rewrite declare_z_spelled. split; [reflexivity|].
  split; [exact (unjoined_proper _ _ V1)|]. split; [exact V1|]. split; [exact E0|]. split; [exact E|]. exact silence.
Qed.
(** The release build reads a phrase whose halves precedence would group the other way round. *)
Definition leaning : phrase := Both (Both (Word (txt "c")) (Word (txt "->"))) (Both (Word (txt "z")) (Word (txt "d"))).
Definition reads_b (x y : outcome (zres tree * ctx)) : bool := match x, y with Ok (Val _, _), Ok (Val _, _) => true | _, _ => false end.
Lemma reads_ok x y : reads_b x y = true -> (forall site, x <> Panic site) /\ exists u c', y = Ok (Val u, c').
Proof. destruct x as [[[u|] c]| | |]; try discriminate. destruct y as [[[v|] c']| | |]; try discriminate. intros _. split; [discriminate|eauto]. Qed.
Lemma leaning_checked :
  reads_b (ast_from_expression (debug (fun _ _ l => l)) fuel0 (spelled leaning) chain_context)
    (ast_from_expression (release (fun _ _ l => l)) fuel0 (spelled leaning) chain_context) = true.
Proof. vm_compute. reflexivity. Qed.
Example C62_release_case : exists u c', proper leaning /\
  (forall site, ast_from_expression (debug (fun _ _ l => l)) fuel0 (spelled leaning) chain_context <> Panic site) /\
  ast_from_expression (release (fun _ _ l => l)) fuel0 (spelled leaning) chain_context = Ok (Val u, c').
Proof.
  destruct (reads_ok _ _ leaning_checked) as (P & u & c' & E). exists u, c'. split; [|auto].
  assert (H : forallb plain_word_b (words_of leaning) = true) by (vm_compute; reflexivity).
  intros v I. rewrite forallb_forall in H. exact (proj1 (plain_word_ok v (H v I))).
Qed.
