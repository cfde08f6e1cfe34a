(** Why a reduction holds (zia/src/reduction_reason.rs). *)
From Verif Require Export Snapshot.
From Coq Require Import String List.
Import ListNotations.
Local Open Scope zia_scope.
Set Implicit Arguments.

(** zia/src/reduction_reason.rs:22-59, zia/src/context_search.rs:1277-1285 *)
Inductive reason :=
| RComparison (c : comparison_reason)
| RExplicit
| RRule (generalisation : tree) (variable_mask : mask) (r : reason)
| RInference (implication : tree) (r : reason)
| RDefault (operator : cid)
| RPartial (p : list (key * (tree * reason)))
| RExistence (subs : substitutions) (generalisation : tree)
| RRecursive (syntax : tree) (r from : reason)
| RSyntaxCannotReduceToItself
| RLeftReducesToRight (r : reason) (lft rgt : tree)
| RRightReducesToLeft (r : reason) (lft rgt : tree)
with comparison_reason :=
| CRSameSyntax
| CRReduction (r reversed : option reason)
| CRNoGreaterThanConcept.

(** zia/src/reduction_reason.rs:14-16 *)
Definition reduction := (tree * reason)%type.
Definition rresult := option reduction.

Definition oand (a b : outcome bool) : outcome bool :=
  x <- a ;; if x : bool then b else Ok false.

(** zia/src/reduction_reason.rs:174-229 ([PartialEq], with its two [todo!()]) and the
    derived equality of [ComparisonReason].  Simplification: the entries of a [Partial]
    are compared in list order, which matters only for which of two [todo!()]s or
    inequalities is met first. *)
Fixpoint reason_eq (a b : reason) {struct a} : outcome bool :=
  match a with
  | RComparison c1 => match b with RComparison c2 => creason_eq c1 c2 | _ => Ok false end
  | RExplicit => match b with RExplicit => Ok true | _ => Ok false end
  | RRule g1 m1 r1 =>
    match b with
    | RRule g2 m2 r2 =>
      if key_eqb (t_key g1) (t_key g2) && keymap_eqb cid_eqb m1 m2 then reason_eq r1 r2
      else Ok false
    | _ => Ok false
    end
  | RInference i1 r1 =>
    match b with
    | RInference i2 r2 => if tree_eqb i1 i2 then reason_eq r1 r2 else Ok false
    | _ => Ok false
    end
  | RDefault o1 => match b with RDefault o2 => Ok (cid_eqb o1 o2) | _ => Ok false end
  | RPartial p1 =>
    match b with
    | RPartial p2 =>
      if Nat.eqb (List.length p1) (List.length p2) then
        (fix all (p1 : list (key * (tree * reason))) : outcome bool :=
           match p1 with
           | [] => Ok true
           | (k, (t1, r1)) :: p1 =>
             match aget key_eqb k p2 with
             | Some (t2, r2) =>
               if key_eqb (t_key t1) (t_key t2) then oand (reason_eq r1 r2) (all p1)
               else Ok false
             | None => Ok false
             end
           end) p1
      else Ok false
    | _ => Ok false
    end
  | RExistence s1 g1 =>
    match b with
    | RExistence s2 g2 => Ok (keymap_eqb key_eqb s1 s2 && key_eqb (t_key g1) (t_key g2))
    | _ => Ok false
    end
  | RRecursive s1 r1 f1 =>
    match b with
    | RRecursive s2 r2 f2 =>
      if key_eqb (t_key s1) (t_key s2) then oand (reason_eq r1 r2) (reason_eq f1 f2)
      else Ok false
    | _ => Ok false
    end
  | RSyntaxCannotReduceToItself => Panic "ReductionReason::eq: todo!()"
  | RLeftReducesToRight _ _ _ => Panic "ReductionReason::eq: todo!()"
  | RRightReducesToLeft r1 l1 g1 =>
    match b with
    | RRightReducesToLeft r2 l2 g2 =>
      oand (reason_eq r1 r2)
           (Ok (key_eqb (t_key l1) (t_key l2) && key_eqb (t_key g1) (t_key g2)))
    | _ => Ok false
    end
  end
with creason_eq (a b : comparison_reason) {struct a} : outcome bool :=
  let oreason_eq (x y : option reason) : outcome bool :=
    match x, y with
    | None, None => Ok true
    | Some x, Some y => reason_eq x y
    | _, _ => Ok false
    end in
  match a with
  | CRSameSyntax => match b with CRSameSyntax => Ok true | _ => Ok false end
  | CRReduction r1 rr1 =>
    match b with
    | CRReduction r2 rr2 => oand (oreason_eq r1 r2) (oreason_eq rr1 rr2)
    | _ => Ok false
    end
  | CRNoGreaterThanConcept =>
    match b with CRNoGreaterThanConcept => Ok true | _ => Ok false end
  end.
Definition oreason_eq (x y : option reason) : outcome bool :=
  match x, y with
  | None, None => Ok true
  | Some x, Some y => reason_eq x y
  | _, _ => Ok false
  end.

(** zia/src/reduction_reason.rs:265-303 *)
Definition simplify_reasoning (r rr : option reason) : outcome comparison_reason :=
  let dflt := CRReduction r rr in
  match r, rr with
  | Some (RComparison cr), _ =>
    match cr with
    | CRReduction cr_r cr_rr =>
      e <- oreason_eq rr cr_rr ;;
      Ok (if e : bool then CRReduction cr_r cr_rr else dflt)
    | _ => Ok dflt
    end
  | _, Some (RComparison cr) =>
    match cr with
    | CRReduction rev_r comp_r =>
      e <- oreason_eq r comp_r ;;
      Ok (if e : bool then CRReduction comp_r rev_r else dflt)
    | _ => Ok dflt
    end
  | _, _ => Ok dflt
  end.

(** zia/src/reduction_reason.rs:343-353 *)
Definition recursive_reason (previous : option reason) (last : reason) (syntax : tree)
  : reason :=
  match previous with
  | None => last
  | Some from => RRecursive syntax last from
  end.

(** zia/src/reduction_reason.rs:394-412, on the entries in iteration order *)
Definition partial_flatten (p : list (key * (tree * reason)))
  : list (key * (tree * reason)) :=
  fold_left (fun acc '(k, (t, r)) =>
               match r with
               | RPartial inner =>
                 fold_left (fun acc '(k, v) => aset key_eqb k v acc) inner acc
               | _ => aset key_eqb k (t, r) acc
               end) p [].

(** zia/src/context_search.rs:1267-1275 *)
Inductive comparison :=
| GreaterThan | LessThan | Incomparable | EqualTo | GreaterThanOrEqualTo
| LessThanOrEqualTo.
