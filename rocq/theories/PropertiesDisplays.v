(** C11: displays that are read back as they were. *)
From Verif Require Import Start Snapshot Context LexerSpec CommandFacts MapFacts AstFacts RangeFacts History Sample Witness Quiet
  Grouping PropertiesGrouping Displays.
From Coq Require Import String List Bool NArith PeanoNat Lia.
Import ListNotations.
Local Open Scope string_scope.

(** If words that no precedence mentions and none of which is found to be left-associative are typed, and
    what was read is displayed without brackets, then the display is the text that was typed, the tree is
    [w1 (w2 (... wn))], and typing the display in again, in this or any other context that does not
    group these words in a particular way, gives a tree that groups the same words in the same way.
    Every history, hash order, number of words and fuel; debug builds.
    Missing: displays with brackets and the displays of answers, for which this is false (see the
    refutations), words with precedences or associativities of their own, and release builds. *)
Theorem C11_bracketless_displays_parse_back_partial cfg fuel ws c u c' :
  fair cfg -> dbg cfg = true -> (forall w, In w ws -> word w) -> indifferent cfg fuel (spaced ws) c ->
  ast_from_expression cfg fuel (spaced ws) c = Ok (Val u, c') -> bracketless (display u) ->
  display u = spaced ws /\ words_right ws u /\
  forall cfg2 fuel2 c2 u2 c2', fair cfg2 -> dbg cfg2 = true -> indifferent cfg2 fuel2 (display u) c2 ->
    ast_from_expression cfg2 fuel2 (display u) c2 = Ok (Val u2, c2') -> words_right ws u2.
Proof.
  intros F D W I E B. destruct (read_words cfg fuel ws c u c' F D W I E) as [R S]. specialize (S B).
  split; [exact S|]. split; [exact R|]. rewrite S. intros cfg2 fuel2 c2 u2 c2' F2 D2 I2 E2.
  exact (proj1 (read_words cfg2 fuel2 ws c2 u2 c2' F2 D2 W I2 E2)).
Qed.
Print Assumptions C11_bracketless_displays_parse_back_partial.

(** ** The hypotheses are met *)
Definition tokens_found (s : text) (c : ctx) : option (list tree * ctx) :=
  match cbind (c_lex cfg0 fuel0 s) (fun ls => cbind (c_nest ls) (fun n => syntax_list_for_nested_syntax cfg0 fuel0 n)) c with
  | Ok (Val ts, c1) => Some (ts, c1)
  | _ => None
  end.
Lemma tokens_found_ok s c ts c1 : reads_tokens cfg0 fuel0 s c ts c1 -> tokens_found s c = Some (ts, c1).
Proof.
  intros (ls & n & L & N & S). unfold tokens_found, cbind, c_lex, c_nest, clift. rewrite L. cbn [obind]. rewrite N. cbn [obind].
  rewrite S. reflexivity.
Qed.
Definition indifferent_b (s : text) (c : ctx) : bool :=
  match tokens_found s c with
  | Some (ts, c1) => unrelated_check c1 ts && not_left ts c1
  | None => true
  end.
Lemma indifferent_ok s c : indifferent_b s c = true -> indifferent cfg0 fuel0 s c.
Proof.
  unfold indifferent_b. intros E ts c1 R. rewrite (tokens_found_ok _ _ _ _ R) in E. apply andb_prop in E. destruct E as [A B].
  split; [apply unrelated_checked, A|apply not_left_ok, B].
Qed.
Definition bracketless_b (s : text) : bool := forallb (fun c => negb (N.eqb c c_open) && negb (N.eqb c c_close)) s.
Lemma bracketless_ok s : bracketless_b s = true -> bracketless s.
Proof.
  intros E c I. apply (proj1 (forallb_forall _ _) E) in I. apply andb_prop in I. destruct I as [A B].
  apply negb_true_iff in A, B. apply N.eqb_neq in A, B. auto.
Qed.
Definition some_words : list text := map txt ["a"; "b"; "c"; "_x_"; "f"].
Definition display_check (x : outcome (zres tree * ctx)) : bool :=
  match x with
  | Ok (Val u, _) => bracketless_b (display u)
  | _ => false
  end.
Lemma display_checked :
  on_session (run_session cfg0 fuel0 (map txt ["let (c -> g)"]) context0)
    (fun _ c => indifferent_b (spaced some_words) c && display_check (ast_from_expression cfg0 fuel0 (spaced some_words) c)) = true.
Proof. vm_compute. reflexivity. Qed.
Example C11_applies :
  exists c u c', reachable true c /\ (forall w, In w some_words -> word w) /\ indifferent cfg0 fuel0 (spaced some_words) c /\
    ast_from_expression cfg0 fuel0 (spaced some_words) c = Ok (Val u, c') /\ bracketless (display u) /\
    display u = txt "a b c _x_ f" /\ words_right some_words u.
Proof.
  destruct (session_witness _ _ display_checked) as (rs & c & _ & R & K). apply andb_prop in K. destruct K as [K1 K2].
  unfold display_check in K2. destruct (ast_from_expression _ _ _ _) as [[[u|] c']| | |] eqn:E; try discriminate K2.
  apply indifferent_ok in K1. apply bracketless_ok in K2.
  assert (W : forall w, In w some_words -> word w).
  { intros w [<-|[<-|[<-|[<-|[<-|[]]]]]]; (split; [discriminate|]); intros x X; repeat destruct X as [<-|X]; try reflexivity; destruct X. }
  destruct (C11_bracketless_displays_parse_back_partial cfg0 fuel0 some_words c u c' fair0 eq_refl W K1 E K2) as (S & G & _).
  exists c, u, c'. split; [exact R|]. split; [exact W|]. split; [exact K1|]. split; [exact E|]. split; [exact K2|].
  split; [exact S|exact G].
Qed.
