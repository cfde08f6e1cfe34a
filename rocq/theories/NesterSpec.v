(** What bracket structure means, said without reference to how [nest] works. *)
From Verif Require Import Lexer Nester.
From Coq Require Import List NArith.
Import ListNotations.

(** The significant tokens of a command: white space is skipped and brackets are
    brackets wherever their partners are. *)
Inductive tok := TSym (k : concept_kind) (t : text) | TOpen | TClose.

Definition tok_of (l : lexeme) : list tok :=
  match lx_cat l with
  | CatConcept k => [TSym k (lx_text l)]
  | CatWhitespace => []
  | CatOpen _ => [TOpen]
  | CatClose _ => [TClose]
  end.
Definition toks (ls : list lexeme) : list tok := flat_map tok_of ls.

(** A bracketed expression is a list of items: symbols or bracketed lists. *)
Inductive item := Atom (k : concept_kind) (t : text) | Group (g : list item).

(** Writing it down. *)
Fixpoint render1 (i : item) : list tok :=
  match i with
  | Atom k t => [TSym k t]
  | Group g => TOpen :: flat_map render1 g ++ [TClose]
  end.
Definition render (is : list item) : list tok := flat_map render1 is.

(** No empty brackets anywhere. *)
Inductive nonempty_groups : list item -> Prop :=
| ng_nil : nonempty_groups []
| ng_atom k t is : nonempty_groups is -> nonempty_groups (Atom k t :: is)
| ng_group g is : g <> [] -> nonempty_groups g -> nonempty_groups is ->
    nonempty_groups (Group g :: is).

(** [ts] is a properly bracketed, non-empty expression with the structure [is]. *)
Definition well_bracketed (ts : list tok) (is : list item) : Prop :=
  is <> [] /\ nonempty_groups is /\ ts = render is.

(** The symbols of a nested syntax tree from left to right. *)
Fixpoint leaves (n : nested) : list (leafkind * text * option cid) :=
  match n with
  | NLeaf k s c => [(k, s, c)]
  | NParent cs _ => flat_map leaves cs
  end.

(** The symbols of a token list from left to right, as leaves: a variable or a new
    symbol has no concept; [exists_such_that] is the quantifier. *)
Definition sym_leaf (k : concept_kind) (t : text) : leafkind * text * option cid :=
  match k with
  | KVariable => (LVariable, t, None)
  | KNew => (LConstant, t, None)
  | KAbstract id => (LConstant, t, Some id)
  | KConcrete id CExistsSuchThat => (LQuantifier, t, Some id)
  | KConcrete id _ => (LConstant, t, Some id)
  end.
Definition sym_leaves (ts : list tok) : list (leafkind * text * option cid) :=
  flat_map (fun t => match t with TSym k s => [sym_leaf k s] | _ => [] end) ts.

(** The canonical text of an expression: one space between items. *)
Fixpoint show_item (i : item) : text :=
  match i with
  | Atom _ t => t
  | Group g =>
    [c_open] ++ (match g with
                 | [] => []
                 | i0 :: is => show_item i0 ++ flat_map (fun x => [c_space] ++ show_item x) is
                 end) ++ [c_close]
  end.
Definition show_items (g : list item) : text :=
  match g with
  | [] => []
  | i0 :: is => show_item i0 ++ flat_map (fun x => [c_space] ++ show_item x) is
  end.

(** The grouping of an expression, with redundant brackets (around a single item) dropped:
    of a nested syntax tree and of a list of items. *)
Inductive grouping := GSymbol (s : leafkind * text * option cid) | GGroup (l : list grouping).
Fixpoint nested_grouping (n : nested) : grouping :=
  match n with
  | NLeaf k s c => GSymbol (k, s, c)
  | NParent cs _ =>
    match cs with
    | [x] => nested_grouping x
    | _ => GGroup (map nested_grouping cs)
    end
  end.
Fixpoint item_grouping (i : item) : grouping :=
  match i with
  | Atom k t => GSymbol (sym_leaf k t)
  | Group g =>
    match g with
    | [x] => item_grouping x
    | _ => GGroup (map item_grouping g)
    end
  end.
