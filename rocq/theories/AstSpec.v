(** Specifications for syntax trees, variable assignments and masks (C30-C34).
    Nothing here mentions the functions of the model that are being specified. *)
From Verif Require Import Ast.
From Coq Require Import List.
Import ListNotations.

(** ** Finite maps, as sets of entries *)
Definition functional {K V} (m : list (K * V)) : Prop := NoDup (map fst m).
Definition maps_to {K V} (m : list (K * V)) (k : K) (v : V) : Prop := In (k, v) m.

(** Two expressions count as the same for the interpreter when their texts and concepts
    are the same. *)
Definition same_expr (a b : tree) : Prop := t_syntax a = t_syntax b /\ t_concept a = t_concept b.

(** Two assignments agree wherever both are defined. *)
Definition agree {K} (a b : list (K * tree)) : Prop :=
  forall k v w, maps_to a k v -> maps_to b k w -> same_expr v w.

(** [m] is the union of [a] and [b], up to [same_expr]. *)
Definition union_of {K} (a b m : list (K * tree)) : Prop :=
  functional m /\
  (forall k v, maps_to m k v -> maps_to a k v \/ maps_to b k v) /\
  (forall k v, maps_to a k v -> exists w, maps_to m k w /\ same_expr w v) /\
  (forall k v, maps_to b k v -> exists w, maps_to m k w /\ same_expr w v).

(** Two assignments that say the same about every key. *)
Definition same_assignment {K} (a b : list (K * tree)) : Prop :=
  (forall k v, maps_to a k v -> exists w, maps_to b k w /\ same_expr w v) /\
  (forall k v, maps_to b k v -> exists w, maps_to a k w /\ same_expr w v).

(** ** Matching an expression against a pattern (C30) *)

Inductive is_leaf_var : tree -> Prop := IsLeafVar s c : is_leaf_var (TLeaf s c LVariable).

(** [instance gen ex e p]: under the assignment [gen] of the pattern's variables and the
    assignment [ex] of the variable concepts of the expression, [p] and [e] are the same. *)
Inductive instance (gen : list (key * tree)) (ex : list (cid * tree)) : tree -> tree -> Prop :=
| InstVariable e s c v :
    maps_to gen (Some s, c) v -> same_expr v e ->
    instance gen ex e (TLeaf s c LVariable)
| InstMasked s c s' c' k' v :
    k' <> LVariable ->
    maps_to ex c v -> same_expr v (TLeaf s' c' k') ->
    instance gen ex (TLeaf s (Some c) LVariable) (TLeaf s' c' k')
| InstSame s c k s' c' k' :
    k' <> LVariable ->
    (k = LVariable -> c = None) ->
    s = s' -> c = c' ->
    instance gen ex (TLeaf s c k) (TLeaf s' c' k')
| InstPair s c l r fv bv s' c' l' r' fv' bv' :
    instance gen ex l l' -> instance gen ex r r' ->
    instance gen ex (TBranch s c l r fv bv) (TBranch s' c' l' r' fv' bv').

(** ** Substitution (C33) *)
Definition mapped (subs : list (key * tree)) (t : tree) : Prop :=
  In (t_syntax t, t_concept t) (map fst subs).

(** [replaced subs t u]: [u] is [t] with its outermost mapped parts replaced. *)
Inductive replaced (subs : list (key * tree)) : tree -> tree -> Prop :=
| ReplacedHere t u :
    maps_to subs (t_syntax t, t_concept t) u -> replaced subs t u
| ReplacedLeaf s c k :
    ~ mapped subs (TLeaf s c k) -> replaced subs (TLeaf s c k) (TLeaf s c k)
| ReplacedBelow s c l r fv bv l' r' :
    ~ mapped subs (TBranch s c l r fv bv) ->
    replaced subs l l' -> replaced subs r r' ->
    replaced subs (TBranch s c l r fv bv) (TBranch s c l' r' fv bv).

Inductive part_of (p : tree) : tree -> Prop :=
| PartSelf : part_of p p
| PartLeft s c l r fv bv : part_of p l -> part_of p (TBranch s c l r fv bv)
| PartRight s c l r fv bv : part_of p r -> part_of p (TBranch s c l r fv bv).

(** ** Variables (C34)

    Reading a tree from left to right, the occurrences of variables: each with a flag
    saying whether it stands directly before a quantifier (which binds it). *)
Fixpoint occurrences (t : tree) : list (key * bool) :=
  match t with
  | TLeaf s c LVariable => [((Some s, c), false)]
  | TLeaf _ _ _ => []
  | TBranch _ _ (TLeaf s c LVariable) (TLeaf _ _ LQuantifier) _ _ => [((Some s, c), true)]
  | TBranch _ _ l r _ _ => occurrences l ++ occurrences r
  end.
(** A variable is free in an expression when its first occurrence is not bound, and bound
    when its first occurrence is. *)
Definition first_occurrence (v : key) (b : bool) (t : tree) : Prop :=
  exists before after, occurrences t = before ++ (v, b) :: after /\
                       ~ In v (map fst before).
Definition occurs_free (v : key) (t : tree) : Prop := first_occurrence v false t.
Definition occurs_bound (v : key) (t : tree) : Prop := first_occurrence v true t.

(** Expressions put together pair by pair, with whatever text and concept attached. *)
Inductive assembled : tree -> Prop :=
| AssembledLeaf s c k : assembled (TLeaf s c k)
| AssembledPair s c l r : assembled l -> assembled r -> assembled (branch s c l r).

(** The variable sets stored with an expression. *)
Definition recorded_free (t : tree) : list key :=
  match t with
  | TLeaf s c LVariable => [(Some s, c)]
  | TLeaf _ _ _ => []
  | TBranch _ _ _ _ fv _ => fv
  end.
Definition recorded_bound (t : tree) : list key :=
  match t with TLeaf _ _ _ => [] | TBranch _ _ _ _ _ bv => bv end.

(** A pair whose left side is a lone variable that its right side binds. *)
Fixpoint no_capture (t : tree) : Prop :=
  match t with
  | TLeaf _ _ _ => True
  | TBranch _ _ l r _ _ =>
    no_capture l /\ no_capture r /\
    match l with
    | TLeaf s c LVariable => ~ occurs_bound (Some s, c) r
    | _ => True
    end
  end.
