(** zia/src/lexer.rs and [Context::lex]. *)
From Verif Require Export Ids.
From Coq Require Import String.
Local Open Scope zia_scope.

(** zia/src/lexer.rs:9-19 *)
Inductive category :=
| CatConcept (k : concept_kind)
| CatWhitespace
| CatOpen (closing_position : option nat)
| CatClose (opening_position : option nat).

(** zia/src/lexer.rs:3-7 *)
Record lexeme := mkLexeme { lx_text : text; lx_cat : category }.

(** zia/src/context.rs:153-158: fill in the closing position of an opening
    parenthesis; other categories are left alone. *)
Definition set_closing (cp : nat) (l : lexeme) : lexeme :=
  match lx_cat l with
  | CatOpen _ => mkLexeme (lx_text l) (CatOpen (Some cp))
  | _ => l
  end.

(** One iteration of the loop at zia/src/context.rs:138-203.  The state is
    [lexemes] and the stack [opening_parentheses_positions] (head = last pushed).
    [kind_of] stands for [self.concept_kind_from_symbol] (context.rs:265), which only
    reads the context; it is defined in Parser.v.
    The indexing [lexemes[op]] at line 155 is checked. *)
Definition lex_step (kind_of : text -> outcome concept_kind)
    (st : list lexeme * list nat) (c : N) : outcome (list lexeme * list nat) :=
  let '(ls, stk) := st in
  if N.eqb c c_open then
    Ok (ls ++ [mkLexeme [c] (CatOpen None)], List.length ls :: stk)
  else if N.eqb c c_close then
    match stk with
    | [] => Ok (ls ++ [mkLexeme [c] (CatClose None)], [])
    | op :: stk' =>
      if Nat.ltb op (List.length ls) then
        Ok (upd_nth op (set_closing (List.length ls)) ls
              ++ [mkLexeme [c] (CatClose (Some op))], stk')
      else Panic "lexemes[op]: index out of bounds"
    end
  else if is_whitespace c then
    match unsnoc ls with
    | Some (i, {| lx_text := t; lx_cat := CatWhitespace |}) =>
      Ok (i ++ [mkLexeme (t ++ [c]) CatWhitespace], stk)
    | _ => Ok (ls ++ [mkLexeme [c] CatWhitespace], stk)
    end
  else
    match unsnoc ls with
    | Some (i, {| lx_text := t; lx_cat := CatConcept _ |}) =>
      k <- kind_of (t ++ [c]) ;;
      Ok (i ++ [mkLexeme (t ++ [c]) (CatConcept k)], stk)
    | _ =>
      k <- kind_of [c] ;;
      Ok (ls ++ [mkLexeme [c] (CatConcept k)], stk)
    end.

Fixpoint lex_loop (kind_of : text -> outcome concept_kind)
    (st : list lexeme * list nat) (cs : text) : outcome (list lexeme * list nat) :=
  match cs with
  | [] => Ok st
  | c :: cs' => st' <- lex_step kind_of st c ;; lex_loop kind_of st' cs'
  end.

(** zia/src/context.rs:135-205 *)
Definition lex (kind_of : text -> outcome concept_kind) (command : text)
  : outcome (list lexeme) :=
  st <- lex_loop kind_of ([], []) command ;; Ok (fst st).
