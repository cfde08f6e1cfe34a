(** C49: parsing keeps the symbols of a command in order.  C10: but it may drop some. *)
From Verif Require Import Start Snapshot Context LexerSpec LexerFacts NameSpec CommandFacts MapFacts AstFacts RangeFacts History Sample Witness Quiet
  Grouping Build Keeping Cutting PropertiesFrames PropertiesNames PropertiesGrouping.
From Coq Require Import String List Bool NArith PeanoNat Lia.
Import ListNotations.
Local Open Scope string_scope.

(** ** C49 *)
(** The leaves of the tree that is read from a text are symbols of the text, in the order of the
    text: none is repeated, moved or invented.  All of them are there if on the way no
    expression made of these symbols was found to be left-associative, and only then.
    The variables among them are those that begin and end with an underscore.
    Reading records nothing but new names and variables.
    Every text, context, hash order and fuel; debug builds. *)
Theorem C49_parsing_keeps_symbols_in_order cfg fuel s ts c u c' :
  fair cfg -> dbg cfg = true -> tokenisation s ts ->
  ast_from_expression cfg fuel s c = Ok (Val u, c') ->
  part_of (tree_words u) (symbol_texts ts) /\
  (exists es, asks cfg fuel c es c' /\ among (symbol_texts ts) es /\ (no_left es <-> tree_words u = symbol_texts ts)) /\
  (forall x k, In (x, k) (tree_symbols u) -> (k = LVariable <-> underscored x)) /\ more_names c c'.
Proof.
  intros F D T E.
  destruct (expression_words cfg fuel F (combine_exp cfg fuel D) s c u c' ts E T) as (N & P & W & K). auto.
Qed.
Print Assumptions C49_parsing_keeps_symbols_in_order.

(** The same for release builds, when the debug build does not stop at an assertion. *)
Theorem C49_release_builds_keep_symbols_in_order f fuel s ts c u c' :
  fair (debug f) -> tokenisation s ts ->
  (forall site, ast_from_expression (debug f) fuel s c <> Panic site) ->
  ast_from_expression (release f) fuel s c = Ok (Val u, c') ->
  part_of (tree_words u) (symbol_texts ts) /\
  (exists es, asks (debug f) fuel c es c' /\ among (symbol_texts ts) es /\ (no_left es <-> tree_words u = symbol_texts ts)) /\
  (forall x k, In (x, k) (tree_symbols u) -> (k = LVariable <-> underscored x)).
Proof.
  intros F T P E. destruct (ast_from_expression_like f fuel s c) as [(site & _ & H)|H]; [destruct (P site H)|].
  rewrite <- H in E. destruct (C49_parsing_keeps_symbols_in_order (debug f) _ _ _ _ _ _ F eq_refl T E) as (A & B & C & _). auto.
Qed.
Print Assumptions C49_release_builds_keep_symbols_in_order.

(** ** The hypotheses are met *)
Fixpoint texts_eqb (a b : list text) : bool :=
  match a, b with
  | [], [] => true
  | x :: a, y :: b => text_eqb x y && texts_eqb a b
  | _, _ => false
  end.
Lemma texts_eqb_ok a : forall b, texts_eqb a b = true -> a = b.
Proof.
  induction a as [|x a IH]; intros [|y b] E; try discriminate E; [reflexivity|]. cbn [texts_eqb] in E.
  apply andb_prop in E. destruct E as [E1 E2]. destruct (text_eqb_spec x y) as [->|]; [|discriminate E1]. now rewrite (IH b E2).
Qed.
Definition reads_words (ws : list text) (x : outcome (zres tree * ctx)) : bool :=
  match x with Ok (Val u, _) => texts_eqb (tree_words u) ws | _ => false end.
Lemma reads_words_ok ws x : reads_words ws x = true -> exists u c', x = Ok (Val u, c') /\ tree_words u = ws.
Proof.
  destruct x as [[[u|] c']| | |]; try discriminate. intros E. exists u, c'. split; [reflexivity|]. now apply texts_eqb_ok.
Qed.
Definition lexes_to (ws : list text) (x : outcome (list lexeme)) : bool :=
  match x with
  | Ok ls => texts_eqb (symbol_texts (map (fun l => (cat_class (lx_cat l), lx_text l)) ls)) ws
  | _ => false
  end.
Lemma lexes_to_ok kf s ws : lexes_to ws (lex kf s) = true -> exists ts, tokenisation s ts /\ symbol_texts ts = ws.
Proof.
  destruct (lex kf s) as [ls| | |] eqn:E; try discriminate. intros K. unfold lexes_to in K. apply texts_eqb_ok in K.
  eexists. split; [eapply lex_tokenisation_lemma, E|exact K].
Qed.
(** Eight symbols, two of them the same; four groups of which one has three members. *)
Definition kept_text : text := txt "let (a  (b c d)) (-> (_x_ a))".
Definition kept_words : list text := map txt ["let"; "a"; "b"; "c"; "d"; "->"; "_x_"; "a"].
Lemma kept_checked :
  (reads_words kept_words (ast_from_expression cfg0 fuel0 kept_text base_context) &&
   lexes_to kept_words (lex (kind_of_symbol cfg0 fuel0 base_context) kept_text))%bool = true.
Proof. vm_compute. reflexivity. Qed.
Example C49_case :
  exists c u c' ts, reachable true c /\ tokenisation kept_text ts /\ ast_from_expression cfg0 fuel0 kept_text c = Ok (Val u, c') /\
    symbol_texts ts = kept_words /\ tree_words u = kept_words /\ more_names c c' /\ part_of (tree_words u) (symbol_texts ts).
Proof.
  pose proof kept_checked as K. apply andb_prop in K. destruct K as [K1 K2].
  apply reads_words_ok in K1. destruct K1 as (u & c' & E & W). apply lexes_to_ok in K2. destruct K2 as (ts & T & S).
  destruct (C49_parsing_keeps_symbols_in_order cfg0 fuel0 kept_text ts _ u c' fair0 eq_refl T E) as (P & _ & _ & N).
  exists base_context, u, c', ts. split; [apply reach_base|]. split; [exact T|]. split; [exact E|]. split; [exact S|].
  split; [exact W|]. split; [exact N|exact P].
Qed.

(** ** C10: symbols that are left out *)
(** A left-associative symbol that binds weakest is dropped together with everything to its
    right: after [assoc c] is declared to be [left] and [z] to precede [c], the tree read from
    [x c y] has [x] for its only symbol, and the command is answered with what [x] reduces to. *)
Definition dropping_commands :=
  ["let ((assoc c) (-> left))"; "let ((z (precedes c)) (-> true))"; "let (x (-> w))"].
Definition dropping_check (rs : list text) (c : ctx) : bool :=
  texts_eqb rs [[]; []; []] && reads_words [txt "x"] (ast_from_expression cfg0 fuel0 (txt "x c y") c) &&
  match execute cfg0 fuel0 (txt "x c y") c with Ok (a, _) => text_eqb a (txt "w") | _ => false end.
Lemma dropping_checked :
  on_session (run_session cfg0 fuel0 (map txt dropping_commands) base_context) dropping_check = true.
Proof. vm_compute. reflexivity. Qed.
Lemma dropping_ok rs c : dropping_check rs c = true ->
  rs = [[]; []; []] /\ (exists u c', ast_from_expression cfg0 fuel0 (txt "x c y") c = Ok (Val u, c') /\ tree_words u = [txt "x"]) /\
  exists c', execute cfg0 fuel0 (txt "x c y") c = Ok (txt "w", c').
Proof.
  unfold dropping_check. generalize (ast_from_expression cfg0 fuel0 (txt "x c y") c). generalize (execute cfg0 fuel0 (txt "x c y") c).
  intros x y K. apply andb_prop in K. destruct K as [K K3]. apply andb_prop in K. destruct K as [K1 K2].
  split; [now apply texts_eqb_ok|]. split; [apply reads_words_ok, K2|].
  destruct x as [[a c']| | |]; try discriminate K3. destruct (text_eqb_spec a (txt "w")) as [->|]; [|discriminate K3]. eauto.
Qed.
Theorem C10_symbols_are_dropped_refuted :
  exists c u c1 c2, reachable true c /\
    run_session cfg0 fuel0 (map txt dropping_commands) base_context = Ok ([[]; []; []], c) /\
    ast_from_expression cfg0 fuel0 (txt "x c y") c = Ok (Val u, c1) /\ tree_words u = [txt "x"] /\
    execute cfg0 fuel0 (txt "x c y") c = Ok (txt "w", c2).
Proof.
  destruct (on_session_ok _ _ dropping_checked) as (rs & c & Er & K). apply dropping_ok in K.
  destruct K as (-> & (u & c1 & E1 & W) & (c2 & E2)). exists c, u, c1, c2.
  split; [exact (reachable_session cfg0 fuel0 fair0 _ base_context _ c (reach_base true) Er)|]. auto.
Qed.
Print Assumptions C10_symbols_are_dropped_refuted.

(** ** C10: left associativity never works *)
(** Let the weakest symbols of a list of three or more tokens be left-associative (it is enough
    that one of them is found to be).  If the list is read at all, there is but one such symbol,
    it does not come first, and it is dropped together with all that follows it: what is read is
    the list of the tokens before it.  Every list, context, hash order, fuel and build. *)
Theorem C10_left_associative_lists_are_cut cfg fuel ts c info c1 u c' :
  fair cfg -> le 3 (length ts) ->
  lowest_precedence_info cfg fuel ts c = Ok (Val info, c1) -> meets_left cfg fuel c1 (ts_syntax info) ->
  parse_list cfg fuel ts c = Ok (Val u, c') ->
  exists p c2, lt 0 p /\ lt p (length ts) /\ (forall q, In q (ts_positions info) -> q = p) /\ unmoved c c2 /\
    ast_from_syntax_list cfg fuel (length ts) (firstn p ts) c2 = Ok (Val u, c').
Proof. intros F. exact (left_lists_cut cfg fuel F ts c info c1 u c'). Qed.
Print Assumptions C10_left_associative_lists_are_cut.
(** So the tree that is read always has fewer symbols than the list. *)
Theorem C10_left_associative_lists_lose_symbols cfg fuel ts c info c1 u c' :
  fair cfg -> dbg cfg = true -> le 3 (length ts) ->
  lowest_precedence_info cfg fuel ts c = Ok (Val info, c1) -> meets_left cfg fuel c1 (ts_syntax info) ->
  parse_list cfg fuel ts c = Ok (Val u, c') ->
  exists p, lt p (length ts) /\ part_of (tree_words u) (flat_map tree_words (firstn p ts)) /\
    lt (length (tree_words u)) (length (flat_map tree_words ts)).
Proof.
  intros F D L I M E. destruct (left_lists_cut cfg fuel F ts c info c1 u c' L I M E) as (p & c2 & P & Q & _ & _ & E').
  apply (list_keeps cfg fuel F (combine_exp cfg fuel D)) in E'. destruct E' as (es & _ & _ & k & K & B & _).
  assert (W : forall l, flat_map tree_words l = map fst (flat_map tree_symbols l)).
  { intros l. induction l as [|t l IH]; [reflexivity|]. cbn. rewrite map_app, IH. reflexivity. }
  assert (X : part_of (tree_words u) (flat_map tree_words (firstn p ts))).
  { unfold tree_words at 1. rewrite (built_words _ _ B), W. apply part_map, part_words, K. }
  exists p. split; [exact Q|]. split; [exact X|]. apply part_length in X. rewrite <- (firstn_skipn p ts) at 1.
  rewrite flat_map_app, app_length. destruct (skipn p ts) as [|t l] eqn:SK.
  - apply (f_equal (@length _)) in SK. rewrite skipn_length in SK. cbn in SK. lia.
  - cbn [flat_map]. rewrite app_length. unfold tree_words at 3. rewrite map_length. pose proof (some_symbol t). lia.
Qed.
Print Assumptions C10_left_associative_lists_lose_symbols.

Definition cut_check (c : ctx) : bool :=
  match tokens "x c y" c with
  | Ok (Val ts, c0) =>
    Nat.leb 3 (length ts) &&
    match lowest_precedence_info cfg0 fuel0 ts c0 with
    | Ok (Val info, c1) =>
      match ts_syntax info with
      | t :: _ => match c_assoc cfg0 fuel0 t c1 with Ok (Val ALeft, _) => true | _ => false end
      | [] => false
      end
    | _ => false
    end && reads_words [txt "x"] (parse_list cfg0 fuel0 ts c0)
  | _ => false
  end.
Lemma cut_checked : on_session (run_session cfg0 fuel0 (map txt dropping_commands) base_context) (fun _ => cut_check) = true.
Proof. vm_compute. reflexivity. Qed.
Lemma cut_ok c : cut_check c = true ->
  exists ts c0 info c1 u c', le 3 (length ts) /\ lowest_precedence_info cfg0 fuel0 ts c0 = Ok (Val info, c1) /\
    meets_left cfg0 fuel0 c1 (ts_syntax info) /\ parse_list cfg0 fuel0 ts c0 = Ok (Val u, c') /\ tree_words u = [txt "x"].
Proof.
  unfold cut_check. destruct (tokens "x c y" c) as [[[ts|] c0]| | |]; try discriminate. intros K.
  apply andb_prop in K. destruct K as [K K3]. apply andb_prop in K. destruct K as [K1 K2]. apply Nat.leb_le in K1.
  apply reads_words_ok in K3. destruct K3 as (u & c' & E & W).
  destruct (lowest_precedence_info cfg0 fuel0 ts c0) as [[[info|] c1]| | |] eqn:I; try discriminate K2.
  destruct (ts_syntax info) as [|t l] eqn:S; [discriminate K2|].
  destruct (c_assoc cfg0 fuel0 t c1) as [[[[]|] c2]| | |] eqn:A; try discriminate K2.
  exists ts, c0, info, c1, u, c'. rewrite S. split; [exact K1|]. split; [exact I|]. split; [eapply MeetsHere, A|]. auto.
Qed.
Example C10_cut_case :
  exists ts c info c1 u c', le 3 (length ts) /\ lowest_precedence_info cfg0 fuel0 ts c = Ok (Val info, c1) /\
    meets_left cfg0 fuel0 c1 (ts_syntax info) /\ parse_list cfg0 fuel0 ts c = Ok (Val u, c') /\
    exists p, lt p (length ts) /\ part_of (tree_words u) (flat_map tree_words (firstn p ts)) /\ lt 1 (length (flat_map tree_words ts)).
Proof.
  destruct (on_session_ok _ _ cut_checked) as (rs & c & _ & K). apply cut_ok in K.
  destruct K as (ts & c0 & info & c1 & u & c' & L & I & M & E & W). exists ts, c0, info, c1, u, c'.
  split; [exact L|]. split; [exact I|]. split; [exact M|]. split; [exact E|].
  destruct (C10_left_associative_lists_lose_symbols _ _ _ _ _ _ _ _ fair0 eq_refl L I M E) as (p & P & Q & R). exists p.
  rewrite W in R. auto.
Qed.
