(** Running a command depends on its text only through its significant tokens; a badly
    bracketed command changes nothing. *)
From Verif Require Import Context LexerSpec NesterSpec CommandSpec CommandFacts MapFacts StoreFacts RangeFacts History.
From Coq Require Import String List.
Import ListNotations.

Lemma ast_by_command cfg fuel s c :
  ast_from_expression cfg fuel s c =
  match read_command (kind_of_symbol cfg fuel c) s with
  | Ok n => cbind (syntax_list_for_nested_syntax cfg fuel n) (parse_list cfg fuel) c
  | Err e => Ok (Fail e, c)
  | Panic p => Panic p
  | OutOfFuel => OutOfFuel
  end.
Proof.
  unfold ast_from_expression, c_lex, c_nest, cbind, clift, read_command.
  destruct (lex (kind_of_symbol cfg fuel c) s) as [ls| | |]; try reflexivity. cbn [obind].
  destruct (nest ls) as [n| | |]; reflexivity.
Qed.
Lemma execute_same_tokens cfg fuel s1 s2 c :
  same_tokens s1 s2 -> execute cfg fuel s1 c = execute cfg fuel s2 c.
Proof.
  intros S.
  assert (R : run_command cfg fuel s1 c = run_command cfg fuel s2 c).
  { unfold run_command, cbind at 1 4. rewrite !ast_by_command, (read_command_same _ _ _ S). reflexivity. }
  unfold execute, execute_without_closing_scope, cbind at 1 3, catch. rewrite R. reflexivity.
Qed.
Lemma reachable_unpinned b c : reachable b c -> pinned c = false.
Proof.
  intros R. destruct R as [|cfg fuel t c r c' F D R E]; [reflexivity|].
  unfold execute in E. apply obind_ok in E. destruct E as ([x c1] & E & E').
  destruct x as [x|]; [|discriminate]. injection E' as <- <-.
  unfold execute_without_closing_scope in E.
  apply bind_back in E. destruct E as (y & c2 & E1 & E2).
  destruct y as [y|]; [|destruct E2; discriminate].
  apply bind_back in E2. destruct E2 as (z & c3 & E2 & E3).
  assert (P : pinned c3 = false).
  { unfold commit in E2. destruct (pinned c2).
    - injection E2 as <- <-. reflexivity.
    - apply obind_ok in E2. destruct E2 as (sn & _ & E2). injection E2 as <- <-. reflexivity. }
  destruct z; [|destruct E3; discriminate]. injection E3 as <- <-. exact P.
Qed.
Lemma ctx_unchanged c :
  c_delta c = delta_default -> c_vars c = [] -> c_bound c = [] -> pinned c = false ->
  Ctx (c_snap c) delta_default (c_cache c) [] [] false (c_tick c) = c.
Proof. destruct c; cbn. intros -> -> -> ->. reflexivity. Qed.
Lemma apply_nothing b s : prev_unc s = [] -> apply b delta_default s = Ok s.
Proof. destruct s. cbn. intros ->. destruct b; reflexivity. Qed.
Lemma execute_improper b cfg fuel s c ls :
  reachable b c -> lex (kind_of_symbol cfg fuel c) s = Ok ls -> ~ properly_bracketed s ->
  exists e, (e = EmptyParentheses \/ e = UnmatchedParentheses \/ e = EmptyExpression) /\
            execute cfg fuel s c = Ok (error_text e, c).
Proof.
  intros R L P. destruct (read_improper _ s ls L P) as (e & Ee & N). exists e. split; [exact Ee|].
  pose proof (reachable_ready _ _ R) as Rd. pose proof (reachable_unpinned _ _ R) as Pn.
  unfold execute, execute_without_closing_scope, catch, run_command.
  unfold cbind at 1. unfold cbind at 1 2. rewrite ast_by_command. unfold read_command.
  rewrite L. cbn [obind]. rewrite N. cbn [obind]. unfold cbind at 1, commit. rewrite Pn, (ready_delta c Rd).
  rewrite apply_nothing by exact (ready_prev c Rd). cbn [obind].
  unfold cret. cbn [obind c_snap c_delta c_cache c_vars c_bound pinned c_tick].
  f_equal. f_equal. apply ctx_unchanged; [exact (ready_delta c Rd)|exact (ready_vars c Rd)|exact (ready_bound c Rd)|exact Pn].
Qed.
