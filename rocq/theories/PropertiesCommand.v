(** C04, C06, C07: from the text of a command to the context.  C18, C41: names. *)
From Verif Require Import Start Snapshot LexerSpec CommandSpec CommandFacts CommandRun StoreSpec NameSpec Names
  RangeFacts History Sample Witness NameWitness.
From Coq Require Import String List.
Import ListNotations.
Local Open Scope string_scope.

(** ** C04 *)
(** What a reported category says, for every lexeme of every command in every context:
    a variable is a symbol with underscores at both ends; a new symbol leads to no concept;
    any other symbol leads to the concept reported, which is built in (with the type
    reported) or not.  [found_under] follows the recorded lists of reductions, from the
    string the store keeps for a text.  Missing for the full claim: that this finds every
    concept carrying the label, which is false (below). *)
Theorem C04_categories_tell_what_is_found_partial :
  forall b cfg fuel c command lexemes l k,
    fair cfg -> reachable b c ->
    lex (kind_of_symbol cfg fuel c) command = Ok lexemes -> In l lexemes -> lx_cat l = CatConcept k ->
    match k with
    | KVariable => underscored (lx_text l)
    | KNew => ~ underscored (lx_text l) /\ forall x, ~ found_under (c_snap c) (lx_text l) x
    | KAbstract id => ~ underscored (lx_text l) /\
        exists x, id = Committed x /\ found_under (c_snap c) (lx_text l) x /\
                  forall cc, ~ built_in (c_snap c) x cc
    | KConcrete id cc => ~ underscored (lx_text l) /\
        exists x, id = Committed x /\ found_under (c_snap c) (lx_text l) x /\ built_in (c_snap c) x cc
    end.
Proof.
  intros b cfg fuel c command lexemes l k F R L I K.
  pose proof (LexerFacts.lex_categories_lemma _ _ _ l k L I K) as E.
  exact (kind_truthful cfg (c_snap c) F fuel c _ k eq_refl (ready_delta c (reachable_ready _ _ R)) E).
Qed.
Print Assumptions C04_categories_tell_what_is_found_partial.

Definition categories (x : outcome (list lexeme)) : option (list (text * category)) :=
  match x with Ok ls => Some (map (fun l => (lx_text l, lx_cat l)) ls) | _ => None end.
Example C04_category_example :
  categories (lex (kind_of_symbol cfg0 fuel0 context0) (txt "let _x_ b")) =
    Some [(txt "let", CatConcept (KConcrete (Committed 11) CLet)); (txt " ", CatWhitespace);
          (txt "_x_", CatConcept KVariable); (txt " ", CatWhitespace); (txt "b", CatConcept KNew)].
Proof. vm_compute. reflexivity. Qed.

(** After `let (a b) -> e`, `let c -> f`, `let (a b) := (c d)`, `let z := c` a concept still
    carries the label c but the lexer reports the symbol c as new. *)
Theorem C04_new_symbol_in_use_refuted :
  exists c x, reachable true c /\ carries_label (c_snap c) x (txt "c") /\
    lex (kind_of_symbol cfg0 fuel0 c) (txt "c") = Ok [mkLexeme (txt "c") (CatConcept KNew)].
Proof. exact hidden_name. Qed.
Print Assumptions C04_new_symbol_in_use_refuted.

(** ** C06 *)
(** [lexemes] exists whenever the context answers what the symbols are. *)
Theorem C06_malformed_commands_change_nothing :
  forall b cfg fuel c command lexemes,
    reachable b c -> lex (kind_of_symbol cfg fuel c) command = Ok lexemes ->
    ~ properly_bracketed command ->
    exists e, (e = EmptyParentheses \/ e = UnmatchedParentheses \/ e = EmptyExpression) /\
      execute cfg fuel command c = Ok (error_text e, c).
Proof. intros b cfg fuel c command lexemes R L P. exact (execute_improper b cfg fuel command c lexemes R L P). Qed.
Print Assumptions C06_malformed_commands_change_nothing.

(** The other way round: a properly bracketed command gets past the bracket check. *)
Theorem C06_other_commands_pass_the_bracket_check :
  forall cfg fuel c command lexemes,
    lex (kind_of_symbol cfg fuel c) command = Ok lexemes ->
    (properly_bracketed command <-> exists n, nest lexemes = Ok n).
Proof.
  intros cfg fuel c command lexemes L. rewrite NesterFacts.nest_iff_lemma. exact (lex_proper _ _ _ L).
Qed.
Print Assumptions C06_other_commands_pass_the_bracket_check.

Example C06_example :
  ~ properly_bracketed (txt "let (a b") /\
  exists ls, lex (kind_of_symbol cfg0 fuel0 context0) (txt "let (a b") = Ok ls.
Proof.
  assert (E : exists ls, lex (kind_of_symbol cfg0 fuel0 context0) (txt "let (a b") = Ok ls)
    by (eexists; vm_compute; reflexivity).
  split; [|exact E]. destruct E as (ls & E).
  rewrite (C06_other_commands_pass_the_bracket_check _ _ _ _ _ E). intros (n & N).
  assert (K : forall x, lex (kind_of_symbol cfg0 fuel0 context0) (txt "let (a b") = x ->
    match x with Ok ls => nest ls = Err UnmatchedParentheses | _ => True end).
  { intros x <-. vm_compute. reflexivity. }
  specialize (K _ E). cbn in K. congruence.
Qed.

(** ** C07 *)
Theorem C07_white_space_does_not_matter :
  forall cfg fuel c command1 command2,
    same_tokens command1 command2 -> execute cfg fuel command1 c = execute cfg fuel command2 c.
Proof. intros. now apply execute_same_tokens. Qed.
Print Assumptions C07_white_space_does_not_matter.

Example C07_whole_command_example : same_tokens (txt "let(a   b)-> c") (txt " let (a b ) -> c ").
Proof.
  exists (map (fun l => (cat_class (lx_cat l), lx_text l))
            match lex (kind_of_symbol cfg0 fuel0 context0) (txt "let(a   b)-> c") with Ok ls => ls | _ => [] end).
  exists (map (fun l => (cat_class (lx_cat l), lx_text l))
            match lex (kind_of_symbol cfg0 fuel0 context0) (txt " let (a b ) -> c ") with Ok ls => ls | _ => [] end).
  assert (T : forall s, (exists ls, lex (kind_of_symbol cfg0 fuel0 context0) s = Ok ls) ->
    tokenisation s (map (fun l => (cat_class (lx_cat l), lx_text l))
            match lex (kind_of_symbol cfg0 fuel0 context0) s with Ok ls => ls | _ => [] end)).
  { intros s (ls & E). rewrite E. exact (LexerFacts.lex_tokenisation_lemma _ _ _ E). }
  split; [apply T; eexists; vm_compute; reflexivity|].
  split; [apply T; eexists; vm_compute; reflexivity|]. vm_compute. reflexivity.
Qed.

(** ** C18 *)
(** After `let (a b) -> e`, `let c -> f`, `let (a b) := (c d)` two concepts carry the label c. *)
Theorem C18_two_concepts_share_a_name_refuted :
  exists c x y, reachable true c /\ x <> y /\
    carries_label (c_snap c) x (txt "c") /\ carries_label (c_snap c) y (txt "c") /\ denotes c (txt "c") x.
Proof. exact shared_name. Qed.
Print Assumptions C18_two_concepts_share_a_name_refuted.

(** ** C41 *)
(** The command `let (a b) := (c d)` succeeds; c denoted y before and denotes x, formerly
    called a, afterwards, while y keeps its label too. *)
Theorem C41_redefining_leaves_two_concepts_with_a_name_refuted :
  exists c1 c2 x y rs, reachable true c1 /\ x <> y /\
    run_session cfg0 fuel0 [txt "let (a b) := (c d)"] c1 = Ok (rs, c2) /\ all_silent rs = true /\
    denotes c1 (txt "c") y /\ carries_label (c_snap c1) x (txt "a") /\
    denotes c2 (txt "c") x /\ carries_label (c_snap c2) x (txt "c") /\ carries_label (c_snap c2) y (txt "c").
Proof. exact name_taken_over. Qed.
Print Assumptions C41_redefining_leaves_two_concepts_with_a_name_refuted.
