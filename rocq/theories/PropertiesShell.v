(** The interactive shell: C54 and C55. *)
From Verif Require Import Start Snapshot Context LexerSpec History CommandSpec CommandFacts Steps Sample Witness Shell
  PropertiesCommand PropertiesNoCrash PropertiesBuild.
From Coq Require Import String List PeanoNat Lia.
Import ListNotations.
Local Open Scope string_scope.

(** ** C54: the shell answers every line once and in order *)
Definition ends (r : read_result) : Prop := match r with Input _ => False | _ => True end.

Theorem C54_lines_are_answered_in_order cfg fuel lines c answers c' reads :
  run_session cfg fuel lines c = Ok (answers, c') ->
  shell_loop cfg fuel (map Input lines ++ reads) c =
  (answers ++ fst (shell_loop cfg fuel reads c'), snd (shell_loop cfg fuel reads c'))%list.
Proof.
  revert c answers c'. induction lines as [|line lines IH]; intros c answers c' E.
  - injection E as <- <-. cbn. destruct (shell_loop cfg fuel reads c); reflexivity.
  - cbn [run_session] in E. destruct (execute cfg fuel line c) as [[r c1]| | |] eqn:E1; try discriminate. cbn [obind] in E.
    destruct (run_session cfg fuel lines c1) as [[rs c2]| | |] eqn:E2; try discriminate. injection E as <- <-.
    cbn [map app shell_loop]. rewrite E1, (IH c1 rs c2 E2). reflexivity.
Qed.
Print Assumptions C54_lines_are_answered_in_order.

(** It leaves exactly when the input ends or it is interrupted; what it has printed then is
    one answer for each line before that, and a farewell. *)
Theorem C54_exits_after_answering cfg fuel reads c printed :
  shell_loop cfg fuel reads c = (printed, Exited) <->
  exists lines last rest answers c', reads = (map Input lines ++ last :: rest)%list /\ ends last /\
    run_session cfg fuel lines c = Ok (answers, c') /\ printed = (answers ++ [txt "Exiting"])%list.
Proof.
  split.
  - revert c printed. induction reads as [|[line| |] reads IH]; intros c printed E; [discriminate| | |].
    + cbn [shell_loop] in E. destruct (execute cfg fuel line c) as [[r c1]| | |] eqn:E1; try discriminate.
      destruct (shell_loop cfg fuel reads c1) as [out e] eqn:E2. injection E as <- ->.
      destruct (IH c1 out E2) as (lines & last & rest & answers & c' & -> & L & R & ->).
      exists (line :: lines), last, rest, (r :: answers), c'. split; [reflexivity|]. split; [exact L|].
      split; [|reflexivity]. cbn [run_session]. rewrite E1. cbn [obind]. rewrite R. reflexivity.
    + injection E as <-. exists [], EndOfInput, reads, [], c. repeat split.
    + injection E as <-. exists [], Signal, reads, [], c. repeat split.
  - intros (lines & last & rest & answers & c' & -> & L & R & ->).
    rewrite (C54_lines_are_answered_in_order cfg fuel lines c answers c' (last :: rest) R).
    destruct last; [destruct L| |]; reflexivity.
Qed.
Print Assumptions C54_exits_after_answering.

(** It stops without a farewell only where a command crashes, with everything answered that
    was typed before. *)
Theorem C54_crashes_where_a_command_does cfg fuel reads c printed site :
  shell_loop cfg fuel reads c = (printed, Crashed site) -> site <> "error" ->
  exists lines line rest c', reads = (map Input lines ++ Input line :: rest)%list /\
    run_session cfg fuel lines c = Ok (printed, c') /\ execute cfg fuel line c' = Panic site.
Proof.
  intros E N. revert c printed E. induction reads as [|[line| |] reads IH]; intros c printed E; try discriminate.
  cbn [shell_loop] in E. destruct (execute cfg fuel line c) as [[r c1]|e|s|] eqn:E1; try discriminate.
  - destruct (shell_loop cfg fuel reads c1) as [out e] eqn:E2. injection E as <- ->.
    destruct (IH c1 out E2) as (lines & l & rest & c' & -> & R & P).
    exists (line :: lines), l, rest, c'. split; [reflexivity|]. split; [|exact P].
    cbn [run_session]. rewrite E1. cbn [obind]. rewrite R. reflexivity.
  - congruence.
  - injection E as <- <-. exists [], line, reads, c. split; [reflexivity|]. split; [reflexivity|exact E1].
Qed.
Print Assumptions C54_crashes_where_a_command_does.

(** Four lines, of which one has a missing bracket, then the end; a fifth line is not read. *)
Definition shell_check (x : list text * ending) : bool :=
  match x with
  | ([a; b; k; d; bye], Exited) =>
    text_eqb a [] && text_eqb b (error_text UnmatchedParentheses) && text_eqb k (txt "b") && text_eqb d (txt "'a'") &&
    text_eqb bye (txt "Exiting")
  | _ => false
  end.
Definition typed : list read_result :=
  [Input (txt "let (a (-> b))"); Input (txt "let (a (-> c"); Input (txt "a"); Input (txt "label_of a"); EndOfInput; Input (txt "a")].
Example shell_example : shell_check (shell_loop cfg0 fuel0 typed base_context) = true.
Proof. vm_compute. reflexivity. Qed.

(** ** C55: mistyped lines and spacing do not disturb a session *)
(** The second list of lines says the same as the first: lines are spaced differently, and
    badly bracketed lines are left out.  The third and fourth are the answers to them. *)
Inductive retyped : list text -> list text -> list text -> list text -> Prop :=
| retyped_end : retyped [] [] [] []
| retyped_spacing a a' r ls ls' rs rs' :
    same_tokens a a' -> retyped ls ls' rs rs' -> retyped (a :: ls) (a' :: ls') (r :: rs) (r :: rs')
| retyped_mistake a e ls ls' rs rs' :
    ~ properly_bracketed a -> retyped ls ls' rs rs' -> retyped (a :: ls) ls' (error_text e :: rs) rs'.
(** The same without the answers. *)
Inductive same_session : list text -> list text -> Prop :=
| same_end : same_session [] []
| same_spacing a a' ls ls' : same_tokens a a' -> same_session ls ls' -> same_session (a :: ls) (a' :: ls')
| same_mistake a ls ls' : ~ properly_bracketed a -> same_session ls ls' -> same_session (a :: ls) ls'.

Theorem C55_mistakes_do_not_disturb cfg fuel lines lines' c answers c' :
  fair cfg -> reachable (dbg cfg) c -> same_session lines lines' -> run_session cfg fuel lines c = Ok (answers, c') ->
  exists answers', run_session cfg fuel lines' c = Ok (answers', c') /\ retyped lines lines' answers answers'.
Proof.
  intros F R S. revert c answers c' R. induction S as [|a a' ls ls' T S IH|a ls ls' P S IH]; intros c answers c' R E.
  - injection E as <- <-. exists []. split; [reflexivity|apply retyped_end].
  - cbn [run_session] in E. destruct (execute cfg fuel a c) as [[r c1]| | |] eqn:E1; try discriminate. cbn [obind] in E.
    destruct (run_session cfg fuel ls c1) as [[rs c2]| | |] eqn:E2; try discriminate. injection E as <- <-.
    assert (R1 : reachable (dbg cfg) c1) by (eapply reach_execute; [exact F|reflexivity|exact R|exact E1]).
    destruct (IH c1 rs c2 R1 E2) as (rs' & E3 & Y). exists (r :: rs'). split; [|apply retyped_spacing; assumption].
    cbn [run_session]. rewrite <- (C07_white_space_does_not_matter cfg fuel c a a' T), E1. cbn [obind]. rewrite E3. reflexivity.
  - cbn [run_session] in E. destruct (C23_bad_brackets_never_crash_partial _ c cfg fuel a F R P) as [X|(e & X)].
    { rewrite X in E. discriminate. }
    rewrite X in E. cbn [obind] in E.
    destruct (run_session cfg fuel ls c) as [[rs c2]| | |] eqn:E2; try discriminate. injection E as <- <-.
    destruct (IH c rs c2 R E2) as (rs' & E3 & Y). exists rs'. split; [exact E3|apply retyped_mistake; assumption].
Qed.
Print Assumptions C55_mistakes_do_not_disturb.

(** Two differently spaced lines and two mistakes. *)
Definition plain (_ : text) : outcome concept_kind := Ok KNew.
Definition tokens_of (s : text) : list (char_class * text) :=
  match lex plain s with Ok ls => map (fun l => (cat_class (lx_cat l), lx_text l)) ls | _ => [] end.
Definition lexes (s : text) : bool := match lex plain s with Ok _ => true | _ => false end.
Lemma lexes_same s1 s2 :
  lexes s1 = true -> lexes s2 = true -> significant (tokens_of s1) = significant (tokens_of s2) -> same_tokens s1 s2.
Proof.
  unfold lexes, tokens_of. destruct (lex plain s1) as [l1| | |] eqn:E1; try discriminate.
  destruct (lex plain s2) as [l2| | |] eqn:E2; try discriminate. intros _ _ S.
  do 2 eexists. split; [exact (LexerFacts.lex_tokenisation_lemma _ _ _ E1)|].
  split; [exact (LexerFacts.lex_tokenisation_lemma _ _ _ E2)|exact S].
Qed.
Definition badly_bracketed (s : text) : bool :=
  match lex plain s with Ok ls => match nest ls with Ok _ => false | _ => true end | _ => false end.
Lemma badly_bracketed_ok s : badly_bracketed s = true -> ~ properly_bracketed s.
Proof.
  unfold badly_bracketed. destruct (lex plain s) as [ls| | |] eqn:E; try discriminate. intros B P.
  apply (lex_proper _ _ _ E), NesterFacts.nest_iff_lemma in P. destruct P as (n & P). rewrite P in B. discriminate.
Qed.
Definition first_typing := map txt ["let (a (-> (b"; "let (a (-> b))"; ""; "  a"; "label_of) a"; "label_of   a "].
Definition second_typing := map txt ["let(a(-> b))"; "a"; "label_of a"].
Example C55_applies :
  same_session first_typing second_typing /\ reachable true base_context /\
  exists answers c', run_session cfg0 fuel0 first_typing base_context = Ok (answers, c') /\ List.length answers = 6.
Proof.
  split; [|split; [apply reach_base|]].
  - cbn [first_typing second_typing map].
    repeat (first [ apply same_end
                  | apply same_mistake; [apply badly_bracketed_ok; vm_compute; reflexivity|]
                  | apply same_spacing; [apply lexes_same; vm_compute; reflexivity|]]).
  - assert (K : on_session (run_session cfg0 fuel0 first_typing base_context) (fun rs _ => Nat.eqb (List.length rs) 6) = true)
      by (vm_compute; reflexivity).
    destruct (on_session_ok _ _ K) as (rs & c' & E & L). exists rs, c'. split; [exact E|apply Nat.eqb_eq, L].
Qed.
