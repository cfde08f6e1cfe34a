(** zia/src/nester.rs and [Context::nest]. *)
From Verif Require Export Lexer.
From Coq Require Import String List.
Import ListNotations.
Local Open Scope zia_scope.

(** zia/src/ast/node.rs:40-45 ([SyntaxLeaf]) *)
Inductive leafkind := LVariable | LConstant | LQuantifier.

(** zia/src/nester.rs:7-12, 67-73.  The field [concept] of a [Parent] is always
    [None] (nester.rs:123,150), so only leaves carry it. *)
Inductive nested :=
| NLeaf (k : leafkind) (syntax : text) (concept : option cid)
| NParent (children : list nested) (syntax : text).

Definition ns_syntax (n : nested) : text :=
  match n with NLeaf _ s _ => s | NParent _ s => s end.

(** zia/src/nester.rs:84-115 *)
Definition from_concept_kind (c : concept_kind) (syntax : text) : nested :=
  NLeaf
    match c with
    | KVariable => LVariable
    | KConcrete _ CExistsSuchThat => LQuantifier
    | _ => LConstant
    end
    syntax
    match c with
    | KNew | KVariable => None
    | KConcrete id _ => Some id
    | KAbstract id => Some id
    end.

(** zia/src/nester.rs:117-126 *)
Definition nest_node (n : nested) : nested :=
  NParent [n] (c_open :: ns_syntax n ++ [c_close]).

(** zia/src/nester.rs:128-154 *)
Definition append_node (n new : nested) : nested :=
  NParent
    match n with
    | NLeaf _ _ _ => [n; new]
    | NParent children _ => children ++ [new]
    end
    (ns_syntax n ++ [c_space] ++ ns_syntax new).

(** The loop state: [nested_syntax_at_depth] and [nest_depth]. *)
Definition nest_state : Type := list (nat * nested) * nat.

(** One iteration of zia/src/context.rs:213-255. *)
Definition nest_step (st : nest_state) (l : lexeme) : outcome nest_state :=
  let '(m, d) := st in
  match lx_cat l with
  | CatWhitespace => Ok (m, d)
  | CatConcept c =>
    let new := from_concept_kind c (lx_text l) in
    let ns := match aget Nat.eqb d m with None => new | Some ns => append_node ns new end in
    let m' := adel Nat.eqb d m in
    match aget Nat.eqb d m' with
    | None => Ok (aset Nat.eqb d ns m', d)
    | Some _ => Panic "A value for the nested_syntax at depth previously exists"
    end
  | CatOpen _ => Ok (m, S d)
  | CatClose _ =>
    match aget Nat.eqb d m with
    | None => Err EmptyParentheses
    | Some ns =>
      let m1 := adel Nat.eqb d m in
      match d with
      | O => Err UnmatchedParentheses
      | S d' =>
        let ns' :=
          match aget Nat.eqb d' m1 with
          | Some outer => append_node outer (nest_node ns)
          | None => nest_node ns
          end in
        Ok (aset Nat.eqb d' ns' (adel Nat.eqb d' m1), d')
      end
    end
  end.

Fixpoint nest_loop (st : nest_state) (ls : list lexeme) : outcome nest_state :=
  match ls with
  | [] => Ok st
  | l :: ls' => st' <- nest_step st l ;; nest_loop st' ls'
  end.

(** zia/src/context.rs:207-263 *)
Definition nest (lexemes : list lexeme) : outcome nested :=
  ' (m, d) <- nest_loop ([], 0) lexemes ;;
  if negb (Nat.eqb d 0) then Err UnmatchedParentheses
  else match aget Nat.eqb 0 m with
       | None => Err EmptyExpression
       | Some ns => Ok ns
       end.
