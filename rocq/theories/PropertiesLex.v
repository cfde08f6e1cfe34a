(** C01-C05, C07 (first half), C08: property theorems about lexing and bracketing.
    [kind_of] is what the context says about a symbol; the theorems hold for every
    such function, in particular for the one of every reachable context. *)
From Verif Require Import Lexer LexerSpec LexerFacts Nester NesterSpec NesterFacts.
From Coq Require Import String List NArith.
Import ListNotations.

(** A sample context for the examples: [let] is built in, [a] is known, the rest is new. *)
Definition sample_kind (t : text) : outcome concept_kind :=
  if is_variable_symbol t then Ok KVariable
  else if text_eqb t (txt "let") then Ok (KConcrete (Committed 3) CLet)
  else if text_eqb t (txt "a") then Ok (KAbstract (Committed 20))
  else Ok KNew.
Definition sample_command : text := txt "let (a  _x_) (-> b))".

(** ** C01 *)
Theorem C01_lexing_loses_nothing :
  forall kind_of command lexemes,
    lex kind_of command = Ok lexemes -> concat (map lx_text lexemes) = command.
Proof. exact lex_lossless_lemma. Qed.
Print Assumptions C01_lexing_loses_nothing.

(** Lexing itself never fails: it answers whenever the context can be asked about symbols. *)
Theorem C01_lexing_always_answers :
  forall kind_of command,
    (forall t, exists k, kind_of t = Ok k) -> exists lexemes, lex kind_of command = Ok lexemes.
Proof. exact lex_total_lemma. Qed.
Print Assumptions C01_lexing_always_answers.

Example C01_example :
  (forall t, exists k, sample_kind t = Ok k) /\
  exists ls, lex sample_kind sample_command = Ok ls /\ List.length ls = 14.
Proof.
  split.
  - intros t. unfold sample_kind.
    destruct (is_variable_symbol t); [eauto|]. destruct (text_eqb t (txt "let")); [eauto|].
    destruct (text_eqb t (txt "a")); eauto.
  - eexists. split; vm_compute; reflexivity.
Qed.

(** ** C02 *)
Theorem C02_lexemes_are_maximal_runs :
  forall kind_of command lexemes,
    lex kind_of command = Ok lexemes ->
    tokenisation command (map (fun l => (cat_class (lx_cat l), lx_text l)) lexemes).
Proof. exact lex_tokenisation_lemma. Qed.
Print Assumptions C02_lexemes_are_maximal_runs.

Theorem C02_maximal_runs_are_unique :
  forall command ts1 ts2,
    tokenisation command ts1 -> tokenisation command ts2 -> ts1 = ts2.
Proof. exact tokenisation_unique_lemma. Qed.
Print Assumptions C02_maximal_runs_are_unique.

Example C02_example :
  exists ts, tokenisation sample_command ts /\ nth_error ts 5 = Some (ClSymbol, txt "_x_").
Proof.
  destruct C01_example as [_ (ls & H & _)].
  exists (map (fun l => (cat_class (lx_cat l), lx_text l)) ls). split.
  - eapply C02_lexemes_are_maximal_runs. exact H.
  - revert H. vm_compute. intros H; injection H as <-. reflexivity.
Qed.

(** ** C03 *)
Theorem C03_opening_brackets_point_to_their_partner :
  forall kind_of command lexemes i l o,
    lex kind_of command = Ok lexemes ->
    nth_error lexemes i = Some l -> lx_cat l = CatOpen o ->
    forall j, o = Some j <-> bracket_match (map (fun l => cat_class (lx_cat l)) lexemes) i j.
Proof. exact lex_open_lemma. Qed.
Print Assumptions C03_opening_brackets_point_to_their_partner.

Theorem C03_closing_brackets_point_to_their_partner :
  forall kind_of command lexemes i l o,
    lex kind_of command = Ok lexemes ->
    nth_error lexemes i = Some l -> lx_cat l = CatClose o ->
    forall j, o = Some j <-> bracket_match (map (fun l => cat_class (lx_cat l)) lexemes) j i.
Proof. exact lex_close_lemma. Qed.
Print Assumptions C03_closing_brackets_point_to_their_partner.

(** The first [(] of the sample is matched by the lexeme at 6, the last [)] by none. *)
Example C03_example :
  exists ls, lex sample_kind sample_command = Ok ls /\
    option_map lx_cat (nth_error ls 2) = Some (CatOpen (Some 6)) /\
    option_map lx_cat (nth_error ls 13) = Some (CatClose None).
Proof. eexists. split; [vm_compute; reflexivity|]. split; reflexivity. Qed.

(** ** C04 (the lexer's half; see also [C04_kind_of_symbol] in PropertiesContext.v) *)
Theorem C04_category_is_that_of_the_whole_text :
  forall kind_of command lexemes l k,
    lex kind_of command = Ok lexemes -> In l lexemes -> lx_cat l = CatConcept k ->
    kind_of (lx_text l) = Ok k.
Proof. exact lex_categories_lemma. Qed.
Print Assumptions C04_category_is_that_of_the_whole_text.

Example C04_example :
  exists ls, lex sample_kind sample_command = Ok ls /\
    In (mkLexeme (txt "let") (CatConcept (KConcrete (Committed 3) CLet))) ls.
Proof. eexists. split; [vm_compute; reflexivity|]. now left. Qed.

(** ** C05 *)
Theorem C05_accepts_exactly_the_well_bracketed :
  forall lexemes,
    (exists ns, nest lexemes = Ok ns) <-> (exists is, well_bracketed (toks lexemes) is).
Proof. exact nest_iff_lemma. Qed.
Print Assumptions C05_accepts_exactly_the_well_bracketed.

Theorem C05_otherwise_a_bracket_error :
  forall lexemes,
    match nest lexemes with
    | Ok _ => True
    | Err e => e = EmptyParentheses \/ e = UnmatchedParentheses \/ e = EmptyExpression
    | _ => False
    end.
Proof. exact nest_errors. Qed.
Print Assumptions C05_otherwise_a_bracket_error.

Theorem C05_empty_expression_exactly_without_symbols :
  forall lexemes, nest lexemes = Err EmptyExpression <-> toks lexemes = [].
Proof. exact nest_empty_iff_lemma. Qed.
Print Assumptions C05_empty_expression_exactly_without_symbols.

Definition nest_text (s : string) : outcome nested :=
  obind (lex sample_kind (txt s)) nest.
Example C05_examples :
  nest_text "a (b c)" <> OutOfFuel /\ (exists ns, nest_text "a (b c)" = Ok ns) /\
  nest_text "a ()" = Err EmptyParentheses /\
  nest_text "a (b" = Err UnmatchedParentheses /\
  nest_text "a b)" = Err UnmatchedParentheses /\
  nest_text "  " = Err EmptyExpression.
Proof.
  split; [discriminate|]. split; [eexists; vm_compute; reflexivity|].
  repeat split; vm_compute; reflexivity.
Qed.

(** ** C07, front half: the nested syntax depends only on the significant tokens
    (the whole command: see PropertiesContext.v) *)
Theorem C07_white_space_does_not_affect_nesting :
  forall lexemes1 lexemes2, toks lexemes1 = toks lexemes2 -> nest lexemes1 = nest lexemes2.
Proof. exact nest_whitespace_lemma. Qed.
Print Assumptions C07_white_space_does_not_affect_nesting.

Example C07_example :
  exists l1 l2, lex sample_kind (txt "a(b  c )") = Ok l1 /\
    lex sample_kind (txt " a (b c)") = Ok l2 /\ l1 <> l2 /\ toks l1 = toks l2.
Proof.
  eexists. eexists. split; [vm_compute; reflexivity|]. split; [vm_compute; reflexivity|].
  split; [discriminate|reflexivity].
Qed.

(** ** C08 *)
Theorem C08_nesting_keeps_symbols_in_order :
  forall lexemes ns, nest lexemes = Ok ns -> leaves ns = sym_leaves (toks lexemes).
Proof. exact nest_leaves_lemma. Qed.
Print Assumptions C08_nesting_keeps_symbols_in_order.

Example C08_example :
  exists ns, nest_text "let (a _x_) -> b" = Ok ns /\ List.length (leaves ns) = 5.
Proof. eexists. split; vm_compute; reflexivity. Qed.

(** The nesting is the bracketing that was typed, up to redundant brackets, and its text is
    the canonical text of the command. *)
Theorem C08_nesting_follows_the_brackets :
  forall lexemes ns, nest lexemes = Ok ns ->
    exists is, well_bracketed (toks lexemes) is /\
      nested_grouping ns = item_grouping (Group is) /\ ns_syntax ns = show_items is.
Proof. exact nest_structure_lemma. Qed.
Print Assumptions C08_nesting_follows_the_brackets.

Theorem C08_brackets_can_be_read_in_one_way :
  forall ts is is', well_bracketed ts is -> well_bracketed ts is' -> is = is'.
Proof. exact well_bracketed_unique_lemma. Qed.
Print Assumptions C08_brackets_can_be_read_in_one_way.

Example C08_grouping_example :
  exists ns, nest_text "a (b (c)) ((d e) f)" = Ok ns /\
    ns_syntax ns = txt "a (b (c)) ((d e) f)" /\
    exists a b c d e f, nested_grouping ns =
      GGroup [GSymbol a; GGroup [GSymbol b; GSymbol c]; GGroup [GGroup [GSymbol d; GSymbol e]; GSymbol f]].
Proof. eexists. split; [vm_compute; reflexivity|]. split; [reflexivity|]. repeat eexists. Qed.
