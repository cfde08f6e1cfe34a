(** Syntax trees (zia/src/ast), substitutions, merging and variable masks. *)
From Verif Require Export Nester.
From Coq Require Import String List.
Import ListNotations.
Local Open Scope zia_scope.

(** zia/src/ast/macro.rs:45-49 ([SyntaxKey]): the optional text and concept. *)
Definition key := (option text * option cid)%type.

Definition option_eqb {A} (eqb : A -> A -> bool) (a b : option A) : bool :=
  match a, b with
  | Some x, Some y => eqb x y
  | None, None => true
  | _, _ => false
  end.

Definition key_eqb (a b : key) : bool :=
  option_eqb text_eqb (fst a) (fst b) && option_eqb cid_eqb (snd a) (snd b).

(** zia/src/ast/macro.rs:16-22 and ast/node.rs:8-18.  Reference counting is dropped.
    Simplification: the [syntax] field of a leaf is [Some] in every constructor of the
    source (macro.rs:107,133,142,157; context.rs:514), so a leaf carries a text, which
    also makes the panic of [Display] (macro.rs:86) unreachable. *)
Inductive tree :=
| TLeaf (s : text) (c : option cid) (k : leafkind)
| TBranch (s : option text) (c : option cid) (l r : tree) (fv bv : list key).

Definition t_syntax (t : tree) : option text :=
  match t with TLeaf s _ _ => Some s | TBranch s _ _ _ _ _ => s end.
(** zia/src/ast/macro.rs:229-231 *)
Definition t_concept (t : tree) : option cid :=
  match t with TLeaf _ c _ => c | TBranch _ c _ _ _ _ => c end.
(** zia/src/ast/macro.rs:37-42 *)
Definition t_key (t : tree) : key := (t_syntax t, t_concept t).
(** zia/src/ast/macro.rs:194-205 *)
Definition t_exp (t : tree) : option (tree * tree) :=
  match t with TLeaf _ _ _ => None | TBranch _ _ l r _ _ => Some (l, r) end.
(** zia/src/ast/macro.rs:126-128 *)
Definition is_leaf_variable (t : tree) : bool :=
  match t with TLeaf _ _ LVariable => true | _ => false end.
(** zia/src/ast/macro.rs:233-243 *)
Definition t_is_variable (t : tree) : bool :=
  match t with
  | TBranch _ _ _ _ fv bv =>
    match fv, bv with [], [] => false | _, _ => true end
  | TLeaf _ _ LVariable => true
  | TLeaf _ _ _ => false
  end.

Definition leafkind_eqb (a b : leafkind) : bool :=
  match a, b with
  | LVariable, LVariable | LConstant, LConstant | LQuantifier, LQuantifier => true
  | _, _ => false
  end.

(** zia/src/ast/node.rs:48-81 ([PartialEq for Node]) *)
Definition node_eqb (a b : tree) : bool :=
  match a, b with
  | TBranch _ _ l r _ _, TBranch _ _ l' r' _ _ =>
    key_eqb (t_key l) (t_key l') && key_eqb (t_key r) (t_key r')
  | TLeaf _ _ k, TLeaf _ _ k' => leafkind_eqb k k'
  | _, _ => false
  end.
(** zia/src/ast/macro.rs:51-64 ([PartialEq for GenericSyntaxTree]) *)
Definition tree_eqb (a b : tree) : bool :=
  match t_syntax a, t_syntax b with
  | Some x, Some y => text_eqb x y
  | _, _ =>
    match t_concept a, t_concept b with
    | Some x, Some y => cid_eqb x y
    | _, _ => node_eqb a b
    end
  end.

(** zia/src/ast/macro.rs:75-93 ([Display]) *)
Fixpoint display (t : tree) : text :=
  match t with
  | TLeaf s _ _ => s
  | TBranch (Some s) _ _ _ _ _ => s
  | TBranch None _ l r _ _ => display l ++ c_space :: display r
  end.

(** zia/src/ast/macro.rs:95-113 ([From<String>]) *)
Definition from_text (s : text) : tree :=
  TLeaf s None (if is_variable_text s then LVariable else LConstant).
(** zia/src/ast/macro.rs:130-137 *)
Definition new_constant_concept (c : cid) : tree :=
  TLeaf (txt "constant " ++ show_cid c) (Some c) LConstant.
(** zia/src/ast/macro.rs:139-145 *)
Definition new_quantifier_concept (c : cid) : tree :=
  TLeaf (txt "quantifier " ++ show_cid c) (Some c) LQuantifier.
(** zia/src/ast/macro.rs:155-161 *)
Definition new_leaf_variable (c : cid) : tree :=
  TLeaf (txt "variable " ++ show_cid c) (Some c) LVariable.

(** zia/src/ast/node.rs:84-135: the variables of a pair.  Right branch first. *)
Definition right_vars (r : tree) : list key * list key * bool :=
  match r with
  | TBranch _ _ _ _ fv bv => (sextend key_eqb [] fv, sextend key_eqb [] bv, false)
  | TLeaf _ _ LVariable => ([t_key r], [], false)
  | TLeaf _ _ LConstant => ([], [], false)
  | TLeaf _ _ LQuantifier => ([], [], true)
  end.
Definition pair_vars (l r : tree) : list key * list key :=
  let '(fv, bv, quantifier) := right_vars r in
  match l with
  | TBranch _ _ _ _ lfv lbv =>
    (sextend key_eqb (filter (fun v => negb (smem key_eqb v lbv)) fv) lfv,
     sextend key_eqb (filter (fun v => negb (smem key_eqb v lfv)) bv) lbv)
  | TLeaf _ _ LVariable =>
    if quantifier then (fv, sadd key_eqb (t_key l) bv)
    else (sadd key_eqb (t_key l) fv, bv)
  | TLeaf _ _ _ => (fv, bv)
  end.
Definition branch (s : option text) (c : option cid) (l r : tree) : tree :=
  let '(fv, bv) := pair_vars l r in TBranch s c l r fv bv.

(** zia/src/ast/macro.rs:147-153 *)
Definition new_pair (l r : tree) : tree := branch None None l r.
(** zia/src/ast/macro.rs:220-227 *)
Definition bind_pair (t l r : tree) : tree := branch (t_syntax t) (t_concept t) l r.
(** zia/src/ast/macro.rs:163-173 *)
Definition bind_nonquantifier (t : tree) (c : cid) : tree :=
  match t with
  | TLeaf s _ k => TLeaf s (Some c) k
  | TBranch s _ l r fv bv => TBranch s (Some c) l r fv bv
  end.
(** zia/src/ast/macro.rs:175-180.  In a release build a branch would turn into a leaf;
    a branch with no text cannot get here (see [tree]), it is given the empty text. *)
Definition bind_quantifier (d : bool) (t : tree) (c : cid) : outcome tree :=
  _ <- dassert d (node_eqb t (TLeaf [] None LConstant)) "bind_quantifier_concept" ;;
  Ok (TLeaf match t_syntax t with Some s => s | None => [] end (Some c) LQuantifier).

(** zia/src/ast/macro.rs:182-191 *)
Fixpoint t_contains (t other : tree) : bool :=
  match t with
  | TBranch _ _ l r _ _ =>
    key_eqb (t_key other) (t_key l) || key_eqb (t_key other) (t_key r)
    || t_contains l other || t_contains r other
  | TLeaf _ _ _ => false
  end.

(** ** Substitutions and masks *)
(** zia/src/substitute.rs:10 *)
Definition substitutions := list (key * tree).
(** zia/src/variable_mask_list.rs:83 *)
Definition mask := list (cid * tree).

(** zia/src/consistent_merge.rs:24-36, 51-63: fold the smaller map into the larger.
    The order in which the smaller map is visited is not observable: a conflict on any
    key makes the whole merge [None]. *)
Fixpoint merge_into {K} (eqb : K -> K -> bool) (small large : list (K * tree))
  : option (list (K * tree)) :=
  match small with
  | [] => Some large
  | (k, v) :: small' =>
    match aget eqb k large with
    | Some w =>
      if key_eqb (t_key w) (t_key v) then merge_into eqb small' large else None
    | None => merge_into eqb small' (aset eqb k v large)
    end
  end.
(** zia/src/consistent_merge.rs:18-38, 45-65 *)
Definition consistent_merge {K} (eqb : K -> K -> bool) (a b : list (K * tree))
  : option (list (K * tree)) :=
  if Nat.ltb (List.length b) (List.length a)
  then merge_into eqb b a else merge_into eqb a b.

(** zia/src/ast/trait.rs:9-13 *)
Record ex_subs := ES { es_gen : substitutions; es_ex : mask }.
(** zia/src/ast/trait.rs:15-24 *)
Definition es_empty : ex_subs := ES [] [].
(** zia/src/ast/trait.rs:26-47 *)
Definition es_merge (a b : ex_subs) : option ex_subs :=
  match consistent_merge key_eqb (es_gen a) (es_gen b),
        consistent_merge cid_eqb (es_ex a) (es_ex b) with
  | Some g, Some e => Some (ES g e)
  | _, _ => None
  end.

(** zia/src/ast/macro.rs:245-277 *)
Fixpoint check_example (example generalisation : tree) : option ex_subs :=
  match example, generalisation with
  | TBranch _ _ le re _ _, TBranch _ _ lg rg _ _ =>
    match check_example le lg, check_example re rg with
    | Some a, Some b => es_merge a b
    | _, _ => None
    end
  | TBranch _ _ _ _ _ _, TLeaf _ _ _ =>
    if t_is_variable generalisation
    then Some (ES [(t_key generalisation, example)] []) else None
  | TLeaf _ _ _, TBranch _ _ _ _ _ _ => None
  | TLeaf _ _ _, TLeaf _ _ _ =>
    if t_is_variable generalisation
    then Some (ES [(t_key generalisation, example)] [])
    else
      match t_concept example with
      | Some id =>
        if t_is_variable example then Some (ES [] [(id, generalisation)])
        else if key_eqb (t_key example) (t_key generalisation) then Some es_empty
        else None
      | None =>
        if key_eqb (t_key example) (t_key generalisation) then Some es_empty else None
      end
  end.

(** zia/src/substitute.rs:12-22.  Only the children of a branch are rewritten: its own
    text, concept and variable sets stay as they were. *)
Fixpoint subst_keys (t : tree) (subs : substitutions) : tree :=
  match aget key_eqb (t_key t) subs with
  | Some u => u
  | None =>
    match t with
    | TLeaf _ _ _ => t
    | TBranch s c l r fv bv =>
      TBranch s c (subst_keys l subs) (subst_keys r subs) fv bv
    end
  end.

(** zia/src/reduction_reason.rs:153-161 together with [HashMap]'s [PartialEq]. *)
Definition keymap_eqb {K} (eqb : K -> K -> bool) (a b : list (K * tree)) : bool :=
  Nat.eqb (List.length a) (List.length b)
  && forallb (fun '(k, v) =>
       match aget eqb k b with
       | Some w => key_eqb (t_key v) (t_key w)
       | None => false
       end) a.

(** zia/src/variable_mask_list.rs:10-13: head first; never empty. *)
Definition mask_list := list mask.
(** zia/src/variable_mask_list.rs:66-70 *)
Definition ml_contains (ml : mask_list) (m : mask) : bool :=
  existsb (fun h => keymap_eqb cid_eqb h m) ml.
(** zia/src/variable_mask_list.rs:56-64 *)
Definition ml_push (ml : mask_list) (m : mask) : option mask_list :=
  if ml_contains ml m then None else Some (m :: ml).
(** zia/src/variable_mask_list.rs:72-76 *)
Fixpoint ml_get (ml : mask_list) (c : cid) : option tree :=
  match ml with
  | [] => None
  | m :: ml' => match aget cid_eqb c m with Some t => Some t | None => ml_get ml' c end
  end.
(** zia/src/variable_mask_list.rs:78-80 *)
Definition ml_tail (ml : mask_list) : option mask_list :=
  match ml with _ :: ((_ :: _) as t) => Some t | _ => None end.
