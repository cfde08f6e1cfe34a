(** Common vocabulary of the model: outcomes, finite maps, decimal printing. *)
From Coq Require Export List Arith Bool NArith Lia.
From Coq Require Import String Ascii Permutation.
Export ListNotations.
Set Implicit Arguments.

(** Rust [String]/[&str] is a list of Unicode scalar values.
    Simplification: Rust stores UTF-8; the code modelled only ever iterates over
    [chars()], concatenates and compares, for which the two views coincide. *)
Definition text := list N.

(** ASCII literals of the source, as [text]. *)
Definition txt (s : string) : text := map N_of_ascii (list_ascii_of_string s).

Definition text_eqb (a b : text) : bool :=
  if list_eq_dec N.eq_dec a b then true else false.

(** zia/src/associativity.rs:3-7 *)
Inductive associativity := ALeft | ARight.

(** zia/src/errors.rs:25-115.  Constructors in source order. *)
Inductive zia_error :=
| EmptyExpression
| UnmatchedParentheses
| RedundantReduction (syntax : text)
| RedundantComposition
| RedundantRefactor
| RedundantCompositionRemoval
| BadComposition
| CyclicReduction
| CannotExpandFurther
| CannotReduceFurther
| ExpandingReduction
| MissingSymbol (symbol : text)
| InfiniteComposition
| EmptyParentheses
| AmbiguousExpression
| LowestPrecendenceNotFound (tokens : list text)
| DifferentAssociativity (token : text) (assoc other : associativity)
| CompositionCollision
| SettingCompositionOfConcrete
| ConcreteReduction
| MultipleReductionPaths
| UnusedSymbol
| NoLabelConcept
| CanOnlyQuantifyOverVariables
| MultiplePointersToDelta
| ExistingReduction (syntax_to_reduce existing_reduction : text).

(** The outcome of running a piece of the code: a value, a [ZiaError] passed on by
    [?], a panic (with a note naming the panicking site), or exhaustion of the
    model's fuel, which stands for "the code has not answered yet". *)
Inductive outcome (A : Type) :=
| Ok (a : A)
| Err (e : zia_error)
| Panic (site : string)
| OutOfFuel.
Arguments Ok {A} a.
Arguments Err {A} e.
Arguments Panic {A} site.
Arguments OutOfFuel {A}.

Definition obind {A B} (m : outcome A) (f : A -> outcome B) : outcome B :=
  match m with
  | Ok a => f a
  | Err e => Err e
  | Panic s => Panic s
  | OutOfFuel => OutOfFuel
  end.
Definition omap {A B} (f : A -> B) (m : outcome A) : outcome B :=
  obind m (fun a => Ok (f a)).

Declare Scope zia_scope.
Delimit Scope zia_scope with zia.
Notation "x <- m ;; k" := (obind m (fun x => k))
  (at level 61, m at next level, right associativity) : zia_scope.
Notation "' p <- m ;; k" := (obind m (fun x => match x with p => k end))
  (at level 61, p pattern, m at next level, right associativity) : zia_scope.

(** [debug_assert!]: panics only in debug builds. *)
Definition dassert (dbg : bool) (cond : bool) (site : string) : outcome unit :=
  if dbg && negb cond then Panic site else Ok tt.

(** [Option::unwrap]/[expect]. *)
Definition unwrap {A} (o : option A) (site : string) : outcome A :=
  match o with Some a => Ok a | None => Panic site end.

(** ** Finite maps

    Rust [HashMap<K, V>] as an association list with at most one entry per key;
    [HashSet<K>] as a duplicate-free list.  The position in the list carries no
    meaning: wherever the code iterates in a way that can be observed the list goes
    through the iteration oracle (see [Config] in Ids.v). *)
Section Maps.
  Context {K V : Type} (eqb : K -> K -> bool).

  (** [HashMap::get] *)
  Fixpoint aget (k : K) (m : list (K * V)) : option V :=
    match m with
    | [] => None
    | (k', v) :: m' => if eqb k k' then Some v else aget k m'
    end.

  (** [HashMap::remove] *)
  Fixpoint adel (k : K) (m : list (K * V)) : list (K * V) :=
    match m with
    | [] => []
    | (k', v) :: m' => if eqb k k' then adel k m' else (k', v) :: adel k m'
    end.

  (** [HashMap::insert] *)
  Fixpoint aset (k : K) (v : V) (m : list (K * V)) : list (K * V) :=
    match m with
    | [] => [(k, v)]
    | (k', v') :: m' => if eqb k k' then (k, v) :: m' else (k', v') :: aset k v m'
    end.
End Maps.

Section Sets.
  Context {K : Type} (eqb : K -> K -> bool).

  (** [HashSet::contains], [slice::contains] *)
  Definition smem (k : K) (s : list K) : bool := existsb (eqb k) s.
  (** [HashSet::insert] *)
  Definition sadd (k : K) (s : list K) : list K := if smem k s then s else s ++ [k].
  (** [HashSet::remove] *)
  Definition sdel (k : K) (s : list K) : list K := filter (fun x => negb (eqb k x)) s.
  (** [HashSet::extend] *)
  Definition sextend (s t : list K) : list K := fold_left (fun acc k => sadd k acc) t s.
End Sets.

(** ** Decimal printing ([usize] [Display]) *)
Fixpoint dec_digits (fuel : nat) (n : N) (acc : text) : text :=
  match fuel with
  | O => acc
  | S f =>
    let acc' := (48 + N.modulo n 10)%N :: acc in
    if N.eqb (N.div n 10) 0 then acc' else dec_digits f (N.div n 10) acc'
  end.
Definition show_nat (n : nat) : text := dec_digits (S n) (N.of_nat n) [].

(** ** Vec helpers *)
(** Splitting a [Vec] at its last element ([last_mut]). *)
Definition unsnoc {A} (l : list A) : option (list A * A) :=
  match rev l with
  | [] => None
  | x :: r => Some (rev r, x)
  end.

(** Write at an index ([v[i] = x]); out of range is a no-op here, callers check. *)
Fixpoint upd_nth {A} (i : nat) (f : A -> A) (l : list A) : list A :=
  match l, i with
  | [], _ => []
  | x :: l', O => f x :: l'
  | x :: l', S i' => x :: upd_nth i' f l'
  end.
