(** The model run on the repository's own tests (zia/tests/*.rs and the documentation example of
    zia/src/lib.rs): every expected answer
    of the test suite that goes through [execute] comes out of the model.  These are
    checks of the model against the source's documented behaviour, not proofs, and are
    deliberately not stated as theorems: [replays x y] is [True] by definition, and the
    tactic [replayed] refuses to build it unless [vm_compute] turns [x] into [y].  So a
    mismatch breaks the build, and nothing here is recomputed by the proof checker. *)
From Verif Require Import Start.
From Coq Require Import String Ascii List.
Import ListNotations.
Local Open Scope string_scope.

Definition replays {A : Type} (got expected : A) : Prop := True.
Ltac replayed :=
  lazymatch goal with
  | |- replays ?x ?y =>
      let a := eval vm_compute in x in
      let b := eval vm_compute in y in
      first [constr_eq a b | fail 1 "the model answers" a];
      exact I
  end.

(** ** zia/tests/definitions.rs *)
Definition fresh_symbol :
  replays (session ["label_of a"])
    (Answers ["'a'"]) := ltac:(replayed).
Definition pair_on_the_left :
  replays (session ["let (a b) := c"])
    (Answers [message BadComposition]) := ltac:(replayed).
Definition fresh_refactor :
  replays (session ["let a := b"])
    (Answers [message RedundantRefactor]) := ltac:(replayed).
Definition bad_refactor :
  replays (session ["let a := b c"; "let b := a"])
    (Answers [""; message InfiniteComposition]) := ltac:(replayed).
Definition defining_used_symbol_as_used_pair :
  replays (session ["let a := b c"; "let f := d e"; "let d := b c"])
    (Answers [""; ""; message CompositionCollision]) := ltac:(replayed).
Definition definition_loop :
  replays (session ["let a := a b"])
    (Answers [message InfiniteComposition]) := ltac:(replayed).
Definition nested_definition_loop :
  replays (session ["let a := (a b) b"])
    (Answers [message InfiniteComposition]) := ltac:(replayed).
Definition chained_definitions_loop :
  replays (session ["let c := a b"; "let a := c b"])
    (Answers [""; message InfiniteComposition]) := ltac:(replayed).
Definition redundantly_remove_definition :
  replays (session ["let a := b c"; "let b := b"])
    (Answers [""; message RedundantCompositionRemoval]) := ltac:(replayed).
Definition redundancy_of_definition :
  replays (session ["let a := b c"; "let a := b c"])
    (Answers [""; message RedundantComposition]) := ltac:(replayed).
Definition setting_definition_of_concrete :
  replays (session ["let label_of := a b"])
    (Answers [message SettingCompositionOfConcrete]) := ltac:(replayed).

(** ** zia/tests/definitions_and_reductions.rs *)
Definition indirect_reduction :
  replays (session ["let a b -> c"; "let d e -> f"; "let g := c f"; "(a b) d e"])
    (Answers [""; ""; ""; "g"]) := ltac:(replayed).
Definition sneeky_infinite_reduction_chain :
  replays (session ["let c d -> a"; "let a := b c d"])
    (Answers [""; message InfiniteComposition]) := ltac:(replayed).
Definition reducing_part_of_a_labelled_concept :
  replays (session ["let a := b c d"; "let c d -> e"; "a"; "b e"])
    (Answers [""; ""; "b e"; "b e"]) := ltac:(replayed).

(** ** zia/tests/exists_such_that.rs *)
Definition some_concept_is_true :
  replays (session ["(_c_ exists_such_that) _c_"])
    (Answers ["true"]) := ltac:(replayed).

(** ** zia/tests/implication.rs *)
Definition simple_condition :
  replays (session ["let a => b"; "let a"; "b"])
    (Answers [""; ""; "true"]) := ltac:(replayed).
Definition negated_condition :
  replays (session ["let a => (b -> false)"; "let a"; "b"])
    (Answers [""; ""; "false"]) := ltac:(replayed).
Definition implicitly_negated_condition :
  replays (session ["let (not _x_) => (_x_ -> false)"; "let not c"; "c"; "let a => not b"; "let a"; "b"])
    (Answers [""; ""; "false"; ""; ""; "false"]) := ltac:(replayed).
Definition implied_reduction_via_implication_chain :
  replays (session ["let (a _x_) => not (b _x_)"; "let (not _x_) => (_x_ -> false)"; "let a c"; "b c"])
    (Answers [""; ""; ""; "false"]) := ltac:(replayed).
Definition partial_order_transitivity :
  replays (session ["-> (precedes let)"])
    (Answers ["true"]) := ltac:(replayed).

(** ** zia/tests/precedence.rs *)
Definition default_precedence :
  replays (session ["a precedes b"])
    (Answers ["a precedes b"]) := ltac:(replayed).

(** ** zia/tests/program_recognition.rs *)
Definition fresh_symbol_is_not_a_program :
  replays (session ["a"])
    (Answers ["a"]) := ltac:(replayed).
Definition fresh_pair_does_not_reduce :
  replays (session ["a b"])
    (Answers ["a b"]) := ltac:(replayed).
Definition fresh_nested_pair_does_not_reduce :
  replays (session ["a b c"])
    (Answers ["a b c"]) := ltac:(replayed).
Definition used_symbol_does_not_reduce :
  replays (session ["let a b -> c"; "c"])
    (Answers [""; "c"]) := ltac:(replayed).
Definition used_symbol_in_a_pair_does_not_reduce :
  replays (session ["let a b -> c"; "a c"])
    (Answers [""; "a c"]) := ltac:(replayed).
Definition used_symbol_in_a_nested_pair_does_not_reduce :
  replays (session ["let a b -> c"; "a b c"])
    (Answers [""; "a b c"]) := ltac:(replayed).

(** ** zia/tests/reductions.rs *)
Definition pair_to_symbol :
  replays (session ["let a b -> c"; "a b"])
    (Answers [""; "c"]) := ltac:(replayed).
Definition nested_pair_to_symbol :
  replays (session ["let a b -> c"; "let a c -> b"; "a a b"])
    (Answers [""; ""; "b"]) := ltac:(replayed).
Definition cycle :
  replays (session ["let a b -> c d"; "let c d -> a b"])
    (Answers [""; message CyclicReduction]) := ltac:(replayed).
Definition trivial_parentheses :
  replays (session ["(a)"])
    (Answers ["a"]) := ltac:(replayed).
Definition infinite_expansion :
  replays (session ["let a b -> c a b"])
    (Answers [message ExpandingReduction]) := ltac:(replayed).
Definition broken_end_chain :
  replays (session ["let a b -> c d"; "let c d -> e"; "let c d -> c d"; "a b"])
    (Answers [""; ""; ""; "c d"]) := ltac:(replayed).
Definition broken_middle_chain :
  replays (session ["let a b -> c d"; "let c d -> e f"; "let e f -> g"; "let e f -> e f"; "a b"])
    (Answers [""; ""; ""; ""; "e f"]) := ltac:(replayed).
Definition change_reduction_rule :
  replays (session ["let a b -> c"; "forget a b"; "let a b -> d"; "a b"])
    (Answers [""; ""; ""; "d"]) := ltac:(replayed).
Definition leapfrog_reduction_rule :
  replays (session ["let a b -> c d"; "let c d -> e"; "forget a b"; "let a b -> e"])
    (Answers [""; ""; ""; ""]) := ltac:(replayed).
Definition redundancy_of_reduction :
  replays (session ["let a b -> c"; "let a b -> c"; "let c d -> c d"])
    (Answers [""; message (ExistingReduction (txt "a b") (txt "c"));
             message (RedundantReduction (txt "c d"))]) := ltac:(replayed).

(** ** zia/tests/syntax.rs *)
Definition empty_parentheses :
  replays (session ["()"])
    (Answers [message EmptyParentheses]) := ltac:(replayed).
Definition ambiguous_expression :
  replays (session ["let assoc c -> left"; "a b c"])
    (Answers [""; message (DifferentAssociativity (txt "c") ALeft ARight)]) := ltac:(replayed).

(** ** zia/tests/variables.rs *)
Definition single_variable_reduction :
  replays (session ["let _a_ b -> c"; "d b"])
    (Answers [""; "c"]) := ltac:(replayed).
Definition repeated_variable_reduction :
  replays (session ["let _a_ + _a_ -> 2 _a_"; "b + b"; "b + c"])
    (Answers [""; "2 b"; "b + c"]) := ltac:(replayed).

(** ** zia/src/lib.rs:43-104: the example of the documentation *)
Definition documented :
  replays
    (match run_session cfg0 fuel0
       (map txt ["let a b -> c"; "a b"; "forget a b"; "let a b -> d"; "a b"; "let a b -> a b";
                 "a b"; "let a b -> a b"; "let a b -> c"; "let a b -> c"]
        ++ [txt "let " ++ [54364%N; 49884%N] ++ txt " := label_of";
            [54364%N; 49884%N] ++ txt " a b"]
        ++ map txt ["let a -> d"; "let b := a b"; "let c d -> (c d) e"; "a -> d"; "d -> a";
                    "a -> a"; "d -> f"; "(a -> d) -> true"; "(d -> a) -> false"; "let g"; "g";
                    "let h i j"; "h i j"; "let _x_ or true -> true"; "false or true"])%list
       context0 with
     | Ok (rs, _) => Answers (map show rs)
     | _ => Undecided
     end)
    (Answers [""; "c"; ""; ""; "d"; ""; "a b"; message (RedundantReduction (txt "a b")); "";
              message (ExistingReduction (txt "a b") (txt "c")); ""; "'c'"; "";
              message InfiniteComposition; message ExpandingReduction; "true"; "false";
              "false"; "d -> f"; "true"; "true"; ""; "true"; ""; "true"; ""; "true"])
  := ltac:(replayed).
