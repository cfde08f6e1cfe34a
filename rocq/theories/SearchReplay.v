(** The model run on the repository's unit tests of evaluation and of the lexer
    (zia/src/context_search_test/*.rs, zia/src/context_test/*.rs, zia/tests/lexer.rs), as
    in Replay.v: checks of the model against the expectations written in the source, not
    theorems.

    The tests of the source run against a [MockSnapShot] (zia/src/mock_snap_shot.rs),
    which keeps the labels in a map of its own.  Here every label is stored the way the
    real snapshot stores it, as a string that the composition of [label_of] with the
    concept reduces to, so these tests also go through [get_label]. *)
From Verif Require Import Start Replay.
From Coq Require Import String List.
Import ListNotations.
Local Open Scope string_scope.

(** ** Stores written down concept by concept *)

(** zia/src/concepts/mod.rs:872-880 ([From<(T, Id)>]), 941-965
    ([Concept::composition_of]) and 139-146 ([make_reduce_to]): the operations the tests
    build their concepts with. *)
Inductive item :=
| Built (n : nat) (cc : cct)
| Plain (n : nat)
| Free (n : nat)
| Bound (n : nat)
| Pair (n l r : nat)
| Reduce (n m : nat).

Definition blank (n : nat) : concept nat := plain n (Abstract (Leaf Constant) None).
Definition at_index (cs : list (concept nat)) (n : nat) : outcome (concept nat) :=
  unwrap (nth_error cs n) "no such concept".
Definition store_one (cs : list (concept nat)) (i : item) : outcome (list (concept nat)) :=
  let set c cs := upd_nth (c_id c) (fun _ => c) cs in
  match i with
  | Built n cc => Ok (set (plain n (Concrete cc)) cs)
  | Plain n => Ok (set (blank n) cs)
  | Free n => Ok (set (make_free_variable n) cs)
  | Bound n => Ok (set (make_bound_variable n) cs)
  | Pair n l r =>
    obind (at_index cs l) (fun cl =>
    obind (at_index cs r) (fun cr =>
    obind (composition_of Nat.eqb true n cl cr) (fun '(comp, cl, cr) =>
    Ok (set (plain n (Abstract comp None)) (set cr (set cl cs))))))
  | Reduce n m =>
    obind (at_index cs n) (fun cn =>
    obind (at_index cs m) (fun cm =>
    obind (make_reduce_to Nat.eqb cn cm) (fun '(cn, cm) =>
    Ok (set cm (set cn cs)))))
  end.
Fixpoint store_all (cs : list (concept nat)) (is : list item) : outcome (list (concept nat)) :=
  match is with
  | [] => Ok cs
  | i :: is => obind (store_one cs i) (fun cs => store_all cs is)
  end.

(** The concepts of a label: the string at [n], its composition at [S n]. *)
Fixpoint label_items (label_of n : nat) (ls : list (nat * string)) : list item :=
  match ls with
  | [] => []
  | (c, _) :: ls =>
    Plain n :: Pair (S n) label_of c :: Reduce (S n) n :: label_items label_of (S (S n)) ls
  end.
Fixpoint label_strings (n : nat) (ls : list (nat * string)) (s : snapshot) : snapshot :=
  match ls with
  | [] => s
  | (_, l) :: ls =>
    let cs := upd_nth n (fun c => set_spec c (StringPart (txt l))) (concepts s) in
    label_strings (S (S n)) ls (map_string (txt l) n (set_concepts s cs))
  end.

(** The store of a test with [size] concepts: [label_of] comes after them when the test
    has none of its own, then the labels. *)
Definition store (size : nat) (is : list item) (ls : list (nat * string))
  : outcome snapshot :=
  let own := find (fun i => match i with Built _ CLabel => true | _ => false end) is in
  let '(label_of, is, n) :=
    match own with
    | Some (Built m _) => (m, is, size)
    | _ => (size, (is ++ [Built size CLabel])%list, S size)
    end in
  let blanks := map blank (seq 0 (n + 2 * List.length ls)) in
  obind (store_all blanks (is ++ label_items label_of n ls)%list) (fun cs =>
  Ok (label_strings n ls
        (Snapshot [] cs
           (flat_map (fun c => match get_concrete c with
                               | Some cc => [(c_id c, cc)] | None => [] end) cs)
           []))).

Definition on_store_with {A} (bound : list key) (size : nat) (is : list item)
    (ls : list (nat * string)) (m : snapshot -> ops -> env -> SM A) : outcome A :=
  obind (store size is ls) (fun s =>
  obind (m s (search cfg0 s fuel0 fuel0) (new_env delta_default bound) (start_state empty_cache 0))
        (fun '(a, _) => Ok a)).
Definition on_store {A} := @on_store_with A [].

Definition c_ (n : nat) : cid := Committed n.
Definition leaf (s : string) (n : nat) : tree := bind_nonquantifier (from_text (txt s)) (c_ n).

(** The equalities of [assert_eq!]. *)
Definition same_reduction (a b : rresult) : outcome bool :=
  match a, b with
  | None, None => Ok true
  | Some (t, r), Some (t', r') => oand (Ok (tree_eqb t t')) (reason_eq r r')
  | _, _ => Ok false
  end.
Definition same_normal_form (a b : tree * option reason) : outcome bool :=
  oand (Ok (tree_eqb (fst a) (fst b))) (oreason_eq (snd a) (snd b)).
Definition comparison_eqb (a b : comparison) : bool :=
  match a, b with
  | GreaterThan, GreaterThan | LessThan, LessThan | Incomparable, Incomparable
  | EqualTo, EqualTo | GreaterThanOrEqualTo, GreaterThanOrEqualTo
  | LessThanOrEqualTo, LessThanOrEqualTo => true
  | _, _ => false
  end.
Definition same_comparison (a b : comparison * comparison_reason) : outcome bool :=
  oand (Ok (comparison_eqb (fst a) (fst b))) (creason_eq (snd a) (snd b)).
Definition all_true (l : list (outcome bool)) : outcome bool :=
  fold_right oand (Ok true) l.

Local Open Scope search_scope.

(** ** zia/src/context_search_test/basic_comparison.rs *)
Definition comparison_items : list item :=
  [Built 0 CGreaterThan; Plain 1; Plain 2; Pair 3 0 2; Pair 4 1 3; Built 5 CTrue;
   Reduce 4 5; Built 6 CAssociativity; Built 7 CRight; Plain 8; Pair 9 8 3;
   Built 10 CFalse; Reduce 9 10].
Definition comparison_labels : list (nat * string) :=
  [(0, ">"); (1, "2"); (2, "1"); (5, "true"); (6, "assoc"); (7, "right"); (8, "3");
   (10, "false")].
Definition basic_comparison :
  replays
    (on_store 11 comparison_items comparison_labels (fun s o e =>
       l <~ o_to_ast o e (c_ 1) ;;
       r <~ o_to_ast o e (c_ 2) ;;
       a <~ o_to_ast o e (c_ 8) ;;
       let cmp x y := Search.compare cfg0 s o e x y in
       lr <~ cmp l r ;; rl <~ cmp r l ;; ll <~ cmp l l ;; ar <~ cmp a r ;; ra <~ cmp r a ;;
       la <~ cmp l a ;;
       slift (all_true
         [same_comparison lr (GreaterThan, CRReduction (Some RExplicit) None);
          same_comparison rl (LessThan, CRReduction None (Some RExplicit));
          same_comparison ll (EqualTo, CRSameSyntax);
          same_comparison ar (LessThanOrEqualTo, CRReduction (Some RExplicit) None);
          same_comparison ra (GreaterThanOrEqualTo, CRReduction None (Some RExplicit));
          same_comparison la (Incomparable, CRReduction None None)])))
    (Ok true) := ltac:(replayed).

(** ** zia/src/context_search_test/basic_composition.rs *)
Definition basic_composition :
  replays
    (on_store 3 [Plain 1; Plain 2; Pair 0 1 2] [(0, "a"); (1, "b"); (2, "c")] (fun s o e =>
       let l := leaf "b" 1 in
       let r := leaf "c" 2 in
       let both := bind_pair (leaf "a" 0) l r in
       p <~ contract_pair cfg0 s fuel0 o e l r ;;
       x <~ o_expand o e (from_text (txt "a")) ;;
       a0 <~ o_to_ast o e (c_ 0) ;; a1 <~ o_to_ast o e (c_ 1) ;; a2 <~ o_to_ast o e (c_ 2) ;;
       sret (key_eqb (t_key p) (t_key both) && tree_eqb x both && tree_eqb a0 both
             && tree_eqb a1 l && tree_eqb a2 r)))
    (Ok true) := ltac:(replayed).

(** ** zia/src/context_search_test/basic_existence.rs *)
Definition variable_x : tree := from_text (txt "_x_").
Definition basic_existence :
  replays
    (on_store_with [t_key variable_x] 3
       [Built 0 CExistsSuchThat; Built 1 CTrue; Plain 2; Reduce 2 1]
       [(0, "exists_such_that"); (1, "true"); (2, "a")] (fun s o e =>
       est <~ o_to_ast o e (c_ 0) ;;
       p <~ combine_ast cfg0 s o e variable_x est ;;
       q <~ combine_ast cfg0 s o e p variable_x ;;
       yes <~ o_to_ast o e (c_ 1) ;;
       a <~ o_to_ast o e (c_ 2) ;;
       r <~ o_reduce o e q ;;
       slift (same_reduction r
                (Some (yes, RExistence [(t_key variable_x, a)] variable_x)))))
    (Ok true) := ltac:(replayed).

(** ** zia/src/context_search_test/basic_inference.rs *)
Definition basic_inference :
  replays
    (on_store 10
       [Built 0 CImplication; Built 1 CTrue; Plain 2; Plain 3; Reduce 2 1; Pair 4 0 3;
        Pair 5 2 4; Reduce 5 1; Built 6 CAssociativity; Built 7 CLeft; Built 8 CPrecedes;
        Built 9 CRight]
       [(0, "implication"); (1, "true"); (2, "a"); (3, "b")] (fun s o e =>
       imp <~ o_to_ast o e (c_ 5) ;;
       let why := RInference imp RExplicit in
       r <~ o_reduce o e (leaf "b" 3) ;;
       nf <~ o_nf o e (leaf "b" 3) None ;;
       slift (all_true [same_reduction r (Some (leaf "true" 1, why));
                        same_normal_form nf (leaf "true" 1, Some why)])))
    (Ok true) := ltac:(replayed).

(** ** zia/src/context_search_test/basic_reduction.rs *)
Definition basic_reduction :
  replays
    (on_store 2 [Built 0 CTrue; Plain 1; Reduce 1 0] [(0, "concrete"); (1, "abstract")]
       (fun s o e =>
       let abs := leaf "abstract" 1 in
       let con := leaf "concrete" 0 in
       n1 <~ o_nf o e abs None ;; n0 <~ o_nf o e con None ;;
       r1 <~ o_reduce o e abs ;; r0 <~ o_reduce o e con ;;
       x1 <~ o_expand o e abs ;; x0 <~ o_expand o e con ;;
       a0 <~ o_to_ast o e (c_ 0) ;; a1 <~ o_to_ast o e (c_ 1) ;;
       slift (all_true
         [same_normal_form n1 (con, Some RExplicit); same_normal_form n0 (con, None);
          same_reduction r1 (Some (con, RExplicit)); same_reduction r0 None;
          Ok (tree_eqb x1 abs && tree_eqb x0 con && tree_eqb a0 con && tree_eqb a1 abs)])))
    (Ok true) := ltac:(replayed).

(** ** zia/src/context_search_test/basic_rule.rs *)
Definition basic_rule :
  replays
    (on_store 4 [Built 0 CTrue; Plain 2; Free 3; Pair 1 2 3; Reduce 1 0]
       [(0, "concrete"); (2, "left")] (fun s o e =>
       let con := leaf "concrete" 0 in
       let l := leaf "left" 2 in
       let random := from_text (txt "random") in
       a0 <~ o_to_ast o e (c_ 0) ;; a2 <~ o_to_ast o e (c_ 2) ;;
       g <~ o_to_ast o e (c_ 1) ;;
       let why := RRule g [(c_ 3, random)] RExplicit in
       r <~ o_reduce o e (new_pair l random) ;;
       nf <~ o_nf o e (new_pair l random) None ;;
       slift (all_true
         [Ok (tree_eqb a0 con && tree_eqb a2 l);
          same_reduction r (Some (con, why)); same_normal_form nf (con, Some why)])))
    (Ok true) := ltac:(replayed).

(** ** zia/src/context_search_test/comparison_existence_implication_rule.rs *)
Definition transitive_items : list item :=
  [Built 0 CTrue; Built 1 CGreaterThan; Built 2 CExistsSuchThat; Built 3 CImplication;
   Free 4; Bound 5; Free 6; Pair 7 1 6; Pair 8 5 7; Plain 9; Pair 10 9 0; Pair 11 0 10;
   Reduce 11 0; Pair 12 9 8; Pair 13 1 5; Pair 14 4 13; Pair 15 14 12; Pair 16 5 2;
   Pair 17 16 15; Pair 18 4 7; Pair 19 3 18; Pair 20 17 19; Reduce 20 0; Plain 21; Plain 22;
   Plain 23; Pair 24 1 22; Pair 25 21 24; Reduce 25 0; Pair 26 1 23; Pair 27 22 26;
   Reduce 27 0; Plain 28; Pair 29 1 28; Pair 30 23 29; Reduce 30 0].
Definition transitive_labels : list (nat * string) :=
  [(0, "true"); (1, ">"); (2, ":"); (3, "=>"); (4, "_x_"); (5, "_y_"); (6, "_z_");
   (9, "and"); (21, "a"); (22, "b"); (23, "c"); (28, "d")].
Definition comparison_existence_implication_rule :
  replays
    (on_store 31 transitive_items transitive_labels (fun s o e =>
       a <~ o_to_ast o e (c_ 21) ;; c <~ o_to_ast o e (c_ 23) ;;
       let m := [(c_ 4, a); (c_ 6, c)] in
       t18 <~ o_to_ast o e (c_ 18) ;; t20 <~ o_to_ast o e (c_ 20) ;;
       t5 <~ o_to_ast o e (c_ 5) ;; t22 <~ o_to_ast o e (c_ 22) ;;
       t15 <~ o_to_ast o e (c_ 15) ;;
       imp <~ substitute cfg0 s fuel0 o e t20 m ;;
       gen <~ substitute cfg0 s fuel0 o e t15 m ;;
       let why := RRule t18 m (RInference imp (RExistence [(t_key t5, t22)] gen)) in
       ac <~ Search.compare cfg0 s o e a c ;;
       ca <~ Search.compare cfg0 s o e c a ;;
       d <~ o_to_ast o e (c_ 28) ;;
       ad <~ Search.compare cfg0 s o e a d ;;
       slift (all_true
         [same_comparison ac (GreaterThan, CRReduction (Some why) None);
          same_comparison ca (LessThan, CRReduction None (Some why));
          Ok (comparison_eqb (fst ad) GreaterThan)])))
    (Ok true) := ltac:(replayed).

(** ** zia/src/context_search_test/existence_inference_rule.rs *)
Definition answer (r : rresult) : outcome tree := omap fst (unwrap r "no reduction").
Definition existence_inference_rule :
  replays
    (on_store 17
       [Built 0 CImplication; Built 1 CTrue; Plain 3; Plain 7; Free 9; Plain 10; Bound 11;
        Built 14 CExistsSuchThat; Pair 13 11 9; Pair 12 11 14; Pair 4 12 13; Pair 2 9 10;
        Pair 5 0 2; Pair 6 4 5; Reduce 6 1; Pair 8 3 7; Reduce 8 1;
        Built 15 CAssociativity; Built 16 CRight]
       [(0, "=>"); (1, "true"); (3, "a"); (7, "example"); (9, "_y_"); (10, "b");
        (11, "_x_"); (14, "exists_such_that")] (fun s o e =>
       x <~ o_to_ast o e (c_ 7) ;; b <~ o_to_ast o e (c_ 10) ;;
       r <~ o_reduce o e (new_pair x b) ;;
       t <~ slift (answer r) ;;
       sret (tree_eqb t (leaf "true" 1))))
    (Ok true) := ltac:(replayed).

(** ** zia/src/context_search_test/implied_reduction_via_implication_chain.rs *)
Definition implied_reduction_via_implication_chain :
  replays
    (on_store 26
       [Built 0 CImplication; Built 1 CTrue; Plain 3; Plain 7; Free 9; Plain 10; Pair 4 3 9;
        Pair 15 10 9; Plain 16; Pair 2 16 15; Pair 5 0 2; Pair 6 4 5; Reduce 6 1; Pair 8 3 7;
        Reduce 8 1; Free 17; Pair 18 16 17; Built 19 CFalse; Built 20 CReduction;
        Pair 21 20 19; Pair 22 17 21; Pair 23 0 22; Pair 24 18 23; Reduce 24 1; Pair 25 10 7;
        Built 11 CPrecedes; Built 12 CAssociativity; Built 13 CLeft; Built 14 CRight]
       [(0, "=>"); (1, "true"); (3, "a"); (7, "example"); (9, "_x_"); (10, "b");
        (11, "prec"); (12, "assoc"); (13, "left"); (14, "right"); (16, "not"); (17, "_y_");
        (19, "false"); (20, "->")] (fun s o e =>
       no <~ o_to_ast o e (c_ 19) ;;
       x <~ o_to_ast o e (c_ 25) ;;
       r <~ find_examples_of_inferred_reduction cfg0 s fuel0 o e x ;;
       t <~ slift (answer r) ;;
       sret (tree_eqb t no)))
    (Ok true) := ltac:(replayed).

(** ** zia/src/context_search_test/inference_rule.rs *)
Definition inference_rule :
  replays
    (on_store 15
       [Built 0 CImplication; Built 1 CTrue; Plain 3; Plain 7; Free 9; Plain 10; Pair 4 3 9;
        Pair 2 9 10; Pair 5 0 2; Pair 6 4 5; Reduce 6 1; Pair 8 3 7; Reduce 8 1;
        Built 11 CPrecedes; Built 12 CAssociativity; Built 13 CLeft; Built 14 CRight]
       [(0, "=>"); (1, "true"); (3, "a"); (7, "example"); (9, "_x_"); (10, "b");
        (11, "precedes"); (12, "assoc"); (13, "left"); (14, "right")] (fun s o e =>
       x <~ o_to_ast o e (c_ 7) ;; b <~ o_to_ast o e (c_ 10) ;;
       yes <~ o_to_ast o e (c_ 1) ;;
       r <~ o_reduce o e (new_pair x b) ;;
       t <~ slift (answer r) ;;
       sret (tree_eqb t yes)))
    (Ok true) := ltac:(replayed).

(** ** zia/src/context_search_test/inferred_negation.rs *)
Definition inferred_negation :
  replays
    (on_store 14
       [Built 0 CImplication; Built 1 CTrue; Plain 3; Plain 7; Built 4 CReduction;
        Built 12 CFalse; Pair 13 4 12; Pair 2 7 13; Pair 5 0 2; Pair 6 3 5; Reduce 3 1;
        Reduce 6 1; Built 8 CPrecedes; Built 9 CAssociativity; Built 10 CLeft;
        Built 11 CRight] [] (fun s o e =>
       x <~ o_to_ast o e (c_ 7) ;;
       r <~ find_examples_of_inferred_reduction cfg0 s fuel0 o e x ;;
       t <~ slift (answer r) ;;
       sret (t_concept t)))
    (Ok (Some (c_ 12))) := ltac:(replayed).

(** ** zia/src/context_search_test/nested_composition_rule.rs *)
Definition nested_composition_rule :
  replays
    (on_store 8
       [Built 0 CTrue; Plain 2; Plain 3; Free 4; Pair 5 3 4; Pair 1 2 5;
        Built 6 CAssociativity; Built 7 CRight; Reduce 1 0]
       [(0, "concrete"); (2, "left"); (3, "right_left"); (4, "_y_")] (fun s o e =>
       let con := leaf "concrete" 0 in
       let l := leaf "left" 2 in
       let random := from_text (txt "random") in
       let x := new_pair l (new_pair (leaf "right_left" 3) random) in
       a0 <~ o_to_ast o e (c_ 0) ;; a2 <~ o_to_ast o e (c_ 2) ;;
       g <~ o_to_ast o e (c_ 1) ;;
       let why := RRule g [(c_ 4, random)] RExplicit in
       r <~ o_reduce o e x ;;
       nf <~ o_nf o e x None ;;
       slift (all_true
         [Ok (tree_eqb a0 con && tree_eqb a2 l);
          match r with
          | Some (t, w) => oand (Ok (key_eqb (t_key t) (t_key con))) (reason_eq w why)
          | None => Ok false
          end;
          same_normal_form nf (con, Some why)])))
    (Ok true) := ltac:(replayed).

(** ** zia/src/context_search_test/not.rs *)
Definition not :
  replays
    (on_store 17
       [Built 0 CImplication; Built 1 CTrue; Free 3; Plain 7; Built 4 CReduction;
        Built 12 CFalse; Pair 13 4 12; Pair 2 3 13; Pair 5 0 2; Pair 16 7 3; Pair 6 16 5;
        Plain 14; Pair 15 7 14; Reduce 15 1; Reduce 6 1; Built 8 CPrecedes;
        Built 9 CAssociativity; Built 10 CLeft; Built 11 CRight]
       [(0, "=>"); (1, "true"); (3, "_x_"); (7, "not"); (4, "->"); (12, "false"); (14, "c")]
       (fun s o e =>
       x <~ o_to_ast o e (c_ 14) ;;
       r <~ find_examples_of_inferred_reduction cfg0 s fuel0 o e x ;;
       t <~ slift (answer r) ;;
       sret (t_concept t)))
    (Ok (Some (c_ 12))) := ltac:(replayed).

(** ** zia/src/context_test/*.rs *)
(** zia/src/context.rs:1241-1273: a context over a given snapshot. *)
Definition on_context {A} (size : nat) (is : list item) (ls : list (nat * string))
    (m : ctx -> outcome A) : outcome A :=
  obind (store size is ls) (fun s =>
  m (Ctx s delta_default empty_cache [] [] false 0)).

Definition basic_precedence :
  replays
    (on_context 11
       [Plain 0; Built 1 CPrecedes; Plain 2; Built 3 CTrue; Plain 4; Pair 5 1 4; Pair 6 0 5;
        Reduce 6 3; Built 7 CAssociativity; Built 8 CLeft; Built 9 CRight; Built 10 CLabel]
       [(0, "c"); (2, "b"); (4, "a"); (1, "precedes")] (fun c =>
       obind (ast_from_expression cfg0 fuel0 (txt "c b a") c) (fun '(t, _) =>
       Ok (match t with
           | Val t =>
             tree_eqb t (bind_pair (from_text (txt "(c b) a"))
                           (new_pair (from_text (txt "c")) (from_text (txt "b")))
                           (leaf "a" 4))
           | Fail _ => false
           end))))
    (Ok true) := ltac:(replayed).

Definition infered_precedence_test :
  replays
    (on_context 33
       [Built 0 CTrue; Built 1 CPrecedes; Built 2 CExistsSuchThat; Built 3 CImplication;
        Free 4; Bound 5; Free 6; Pair 7 1 6; Pair 8 5 7; Plain 9; Pair 10 9 0; Pair 11 0 10;
        Reduce 11 0; Pair 12 9 8; Pair 13 1 5; Pair 14 4 13; Pair 15 14 12; Pair 16 5 2;
        Pair 17 16 15; Pair 18 4 7; Pair 19 3 18; Pair 20 17 19; Reduce 20 0; Built 21 CLet;
        Built 22 CReduction; Built 23 CDefine; Pair 24 1 21; Pair 25 23 24; Reduce 25 0;
        Built 26 CAssociativity; Built 27 CRight; Pair 28 1 23; Pair 29 22 28; Reduce 29 0;
        Built 30 CFalse; Built 31 CLeft; Built 32 CLabel]
       [(0, "true"); (1, "precedes"); (2, ":"); (3, "=>"); (4, "_x_"); (5, "_y_");
        (6, "_z_"); (9, "and"); (21, "let"); (22, "->"); (26, "assoc"); (27, "right");
        (30, "false")] (fun c =>
       obind (execute cfg0 fuel0 (txt "-> (precedes let)") c) (fun '(r, _) => Ok (show r))))
    (Ok "true") := ltac:(replayed).

(** ** zia/tests/lexer.rs *)
Definition lexed (s : string) : outcome (list (string * category)) :=
  obind (lex (kind_of_symbol cfg0 fuel0 context0) (txt s)) (fun ls =>
  Ok (map (fun l => (show (lx_text l), lx_cat l)) ls)).
Definition lexer_identifies_new_concept :
  replays (lexed "new_concept") (Ok [("new_concept", CatConcept KNew)]) := ltac:(replayed).
Definition lexer_identifies_whitespace :
  replays (lexed "new_concept another_new_concept")
    (Ok [("new_concept", CatConcept KNew); (" ", CatWhitespace);
         ("another_new_concept", CatConcept KNew)]) := ltac:(replayed).
Definition lexer_identifies_concrete_concept :
  replays (lexed "let") (Ok [("let", CatConcept (KConcrete (c_ 11) CLet))]) := ltac:(replayed).
Definition lexer_identifies_abstract_concept :
  replays (lexed "and") (Ok [("and", CatConcept (KAbstract (c_ 44)))]) := ltac:(replayed).
Definition lexer_identifies_opening_parenthesis :
  replays (lexed "(") (Ok [("(", CatOpen None)]) := ltac:(replayed).
Definition lexer_identifies_closing_parenthesis :
  replays (lexed ")") (Ok [(")", CatClose None)]) := ltac:(replayed).
Definition lexer_identifies_matching_parentheses :
  replays (lexed "()") (Ok [("(", CatOpen (Some 1)); (")", CatClose (Some 0))])
  := ltac:(replayed).
Definition lexer_identifies_variable :
  replays (lexed "_x_") (Ok [("_x_", CatConcept KVariable)]) := ltac:(replayed).
