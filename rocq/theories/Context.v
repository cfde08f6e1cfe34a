(** Running commands (zia/src/context.rs:288-347, 782-1229). *)
From Verif Require Export Parser.
From Coq Require Import String List.
Import ListNotations.
Set Implicit Arguments.
Local Open Scope ctx_scope.

(** ** Messages: zia/src/errors.rs:25-115 *)
Definition show_associativity (a : associativity) : text :=
  match a with ALeft => txt "Left" | ARight => txt "Right" end.
(** [{:?}] of a [Vec<String>].  Simplification: characters that [Debug] would escape are
    shown as they are. *)
Definition show_strings (l : list text) : text :=
  let quote s := txt """" ++ s ++ txt """" in
  txt "[" ++ match l with
             | [] => []
             | s :: l => quote s ++ flat_map (fun s => txt ", " ++ quote s) l
             end ++ txt "]".
Definition error_text (e : zia_error) : text :=
  match e with
  | EmptyExpression => txt "No concepts recognised in expression"
  | UnmatchedParentheses => txt "Not all opening parentheses match closing parentheses"
  | RedundantReduction s => txt "That reduction rule for " ++ s ++ txt " already exists."
  | RedundantComposition => txt "That definition already exists."
  | RedundantRefactor => txt "Relabelling something that doesn't yet exist has no effect."
  | RedundantCompositionRemoval => txt "Removing a definition that doesn't exist is redundant."
  | BadComposition => txt "Cannot define expressions."
  | CyclicReduction => txt "Cannot allow a chain of reduction rules to loop."
  | CannotExpandFurther => txt "Cannot expand syntax further"
  | CannotReduceFurther => txt "Cannot reduce syntax further"
  | ExpandingReduction => txt "Cannot reduce a concept to an expression containing itself."
  | MissingSymbol s => txt "Missing " ++ s
  | InfiniteComposition =>
    txt "Cannot define a concept as an expression whose normal form contains itself."
  | EmptyParentheses => txt "Parentheses need to contain a symbol or expression."
  | AmbiguousExpression =>
    txt "Ambiguity due to lack of precedence or associativity defined for the symbols in that expression."
  | LowestPrecendenceNotFound ts =>
    txt "Could not find lowest precendence for `" ++ show_strings ts ++ txt "`"
  | DifferentAssociativity t a o =>
    txt "Tokens with the lowest precendence don't all have the same associativity. The token `"
    ++ t ++ txt "` is `" ++ show_associativity a
    ++ txt "` associative whereas the rest of the tokens are `" ++ show_associativity o
    ++ txt "` associative"
  | CompositionCollision =>
    txt "Cannot define a used symbol as another used symbol or expression."
  | SettingCompositionOfConcrete => txt "Cannot set a definition of a concrete concept"
  | ConcreteReduction => txt "Cannot reduce a concrete concept"
  | MultipleReductionPaths =>
    txt "Concept is already composed of concepts with their own reduction rules."
  | UnusedSymbol => txt "Symbol was expected to be used to label a concept but isn't."
  | NoLabelConcept => txt "Tried to label a concept without a concept of a label."
  | CanOnlyQuantifyOverVariables =>
    txt "Cannot quantify over compound expressions or constant concepts"
  | MultiplePointersToDelta => txt "Multiple smart pointers to context delta"
  | ExistingReduction s r => s ++ txt " already reduces to " ++ r
  end.

Section Context.
  Variable cfg : config.
  Variable fuel : nat.

  Definition c_expand (t : tree) : CM tree :=
    fun c => with_search (fun e => o_expand (ops_of cfg fuel c) e t) c.
  Definition c_reduce (t : tree) : CM rresult :=
    fun c => with_search (fun e => o_reduce (ops_of cfg fuel c) e t) c.
  Definition c_normal_form (t : tree) : CM tree :=
    fun c => with_search (fun e => smap fst (o_nf (ops_of cfg fuel c) e t None)) c.
  Definition c_inferred (t : tree) : CM rresult :=
    fun c => with_search (fun e =>
      find_examples_of_inferred_reduction cfg (c_snap c) fuel (ops_of cfg fuel c) e t) c.
  Definition c_contract (l r : tree) : CM tree :=
    fun c => with_search (fun e =>
      contract_pair cfg (c_snap c) fuel (ops_of cfg fuel c) e l r) c.

  (** zia/src/context.rs:314-347 *)
  Fixpoint create_variable_concepts (t : tree) : CM tree :=
    match t with
    | TBranch s c l r fv bv =>
      l <= create_variable_concepts l ;;
      r <= create_variable_concepts r ;;
      cret (TBranch s c l r fv bv)
    | TLeaf s _ LVariable =>
      fun c =>
        match aget text_eqb s (c_vars c) with
        | Some id => Ok (Val (bind_nonquantifier t id), c)
        | None =>
          (_ <= need_delta ;;
           id <= update (DNew (if smem key_eqb (t_key t) (c_bound c)
                               then NBoundVariable else NFreeVariable)) ;;
           fun c => Ok (Val (bind_nonquantifier t id),
                        Ctx (c_snap c) (c_delta c) (c_cache c)
                            (aset text_eqb s id (c_vars c)) (c_bound c) (pinned c) (c_tick c))) c
        end
    | _ => cret t
    end.

  (** zia/src/context.rs:782-787 *)
  Definition commit : CM unit :=
    fun c =>
      let c' s := Ctx s delta_default (c_cache c) (c_vars c) (c_bound c) false (c_tick c) in
      if pinned c then Ok (Fail MultiplePointersToDelta, c' (c_snap c))
      else obind (apply (dbg cfg) (c_delta c) (c_snap c)) (fun s => Ok (Val tt, c' s)).

  (** zia/src/context.rs:1200-1227 *)
  Definition try_removing_reduction (t : tree) : CM unit :=
    _ <= need_delta ;;
    match t_concept t with
    | None => cfail (RedundantReduction (display t))
    | Some c => delete_reduction cfg c (display t)
    end.

  (** zia/src/context.rs:1157-1198 *)
  Definition execute_reduction (t nf : tree) : CM unit :=
    if t_contains nf t then cfail ExpandingReduction
    else if key_eqb (t_key t) (t_key nf) then try_removing_reduction t
    else
      existing <= c_reduce t ;;
      existing <= match existing with Some r => cret (Some r) | None => c_inferred t end ;;
      match existing with
      | Some (r, _) => cfail (ExistingReduction (display t) (display r))
      | None =>
        _ <= need_delta ;;
        c <= concept_from_ast cfg fuel t ;;
        r <= concept_from_ast cfg fuel nf ;;
        update_reduction cfg fuel c (display t) r
      end.

  (** zia/src/context.rs:1058-1155 *)
  Definition define (new old : tree) : CM unit :=
    match t_concept new, t_exp new, t_concept old, t_exp old with
    | _, Some _, _, None => cfail BadComposition
    | _, None, None, None => cfail RedundantRefactor
    | None, _, Some b, None =>
      _ <= need_delta ;; relabel cfg fuel b (display old) (display new)
    | None, _, Some b, Some _ =>
      s <= c_to_ast cfg fuel b ;;
      l <= clift (fun x => get_concept_of_label cfg (c_snap x) (c_delta x) b) ;;
      _ <= need_delta ;;
      match l with
      | None => label cfg fuel b (display s) (display new)
      | Some _ => relabel cfg fuel b (display old) (display new)
      end
    | None, _, None, Some (l, r) =>
      _ <= need_delta ;; define_new_syntax cfg fuel (display new) l r
    | Some a, a_comp, Some b, None =>
      if cid_eqb a b then
        m <= c_read cfg a ;;
        match m_composition m with
        | None => cfail RedundantCompositionRemoval
        | Some (l, r) =>
          ls <= c_to_ast cfg fuel l ;;
          rs <= c_to_ast cfg fuel r ;;
          _ <= need_delta ;;
          _ <= try_delete_concept cfg a (show_cid a) ;;
          _ <= try_delete_concept cfg l (display ls) ;;
          try_delete_concept cfg r (display rs)
        end
      else
        match a_comp with
        | None =>
          exists_ <= clift (fun x => Ok (get_concept (c_snap x) b)) ;;
          match exists_ with
          | Some _ =>
            _ <= need_delta ;;
            _ <= unlabel cfg a (show_cid a) ;;
            relabel cfg fuel b (display old) (display new)
          | None => cfail RedundantRefactor
          end
        | Some _ => cfail CompositionCollision
        end
    | Some a, _, Some b, Some _ =>
      cfail (if cid_eqb a b then RedundantComposition else CompositionCollision)
    | Some a, Some (nl, nr), None, Some (l, r) =>
      _ <= need_delta ;;
      redefine_composition cfg fuel a l r (display nl) (display nr)
    | Some a, None, None, Some (l, r) =>
      _ <= need_delta ;; redefine cfg fuel a l r
    end.

  (** zia/src/context.rs:1031-1041 *)
  Definition execute_composition (new old : tree) : CM unit :=
    if t_contains old new then cfail InfiniteComposition else define new old.

  (** zia/src/context.rs:999-1028 *)
  Fixpoint match_righthand_pair (n : nat) (l rl rr : tree) : CM unit :=
    match n with
    | O => fun _ => OutOfFuel
    | S n =>
      match t_concept rl with
      | None => cfail UnusedSymbol
      | Some c =>
        ty <= c_concrete_type cfg c ;;
        match ty with
        | Some CReduction => execute_reduction l rr
        | Some CDefine => execute_composition l rr
        | _ =>
          m <= c_read cfg c ;;
          match m_reduction m with
          | None => cfail CannotReduceFurther
          | Some r => t <= c_to_ast cfg fuel r ;; match_righthand_pair n l t rr
          end
        end
      end
    end.

  (** A [ContextSearch] kept alive while [m] runs (context.rs:867-880). *)
  Definition with_pin {A} (m : CM A) : CM A :=
    fun c =>
      let set p c := Ctx (c_snap c) (c_delta c) (c_cache c) (c_vars c) (c_bound c) p (c_tick c) in
      obind (m (set true c)) (fun '(r, c') => Ok (r, set (pinned c) c')).

  Section Calls.
    Variable call : tree -> CM text.
    Variable call_pair : tree -> tree -> CM text.

    (** zia/src/context.rs:851-864 *)
    Definition reduce_and_call_pair (l r : tree) : CM text :=
      lr <= c_reduce l ;;
      rr <= c_reduce r ;;
      match lr, rr with
      | None, None => cfail CannotReduceFurther
      | Some (l', _), None => call_pair l' r
      | None, Some (r', _) => call_pair l r'
      | Some (l', _), Some (r', _) => call_pair l' r'
      end.

    (** zia/src/context.rs:867-881 *)
    Definition try_reducing_then_call (t : tree) : CM text :=
      nf <= c_normal_form t ;;
      if key_eqb (t_key nf) (t_key t) then
        r <= c_inferred t ;;
        match r with
        | Some (r, _) => cret (display r)
        | None => cfail CannotReduceFurther
        end
      else with_pin (call nf).

    (** zia/src/context.rs:884-920 *)
    Definition call_step (t : tree) : CM text :=
      s <= match t_concept t with
           | Some c => m <= c_read cfg c ;; cret (m_string m)
           | None => cret None
           end ;;
      match s with
      | Some s => cret s
      | None =>
        match t_exp t with
        | Some (l, r) =>
          on_irreducible (call_pair l r)
            (on_irreducible (try_reducing_then_call t)
               (t <= c_contract l r ;; cret (display t)))
        | None => on_irreducible (try_reducing_then_call t) (cret (display t))
        end
      end.

    (** zia/src/context.rs:941-965: [let] *)
    Definition call_let (r : tree) : CM (option (zres unit)) :=
      attempt <=
        match t_exp r with
        | Some (l, r) =>
          match t_exp r with
          | Some (rl, rr) =>
            x <= catch (match_righthand_pair fuel l rl rr) ;;
            cret (match x with
                  | Fail CannotReduceFurther | Fail UnusedSymbol => None
                  | x => Some x
                  end)
          | None => cret None
          end
        | None => cret None
        end ;;
      match attempt with
      | Some x => cret (Some x)
      | None =>
        t <= c_concrete_ast cfg fuel CTrue ;;
        match t with
        | Some t => x <= catch (execute_reduction r t) ;; cret (Some x)
        | None => cret None
        end
      end.

    (** zia/src/context.rs:934-983 *)
    Definition call_pair_step (l r : tree) : CM text :=
      ty <= c_concrete_type_of cfg l ;;
      done <=
        match ty with
        | Some CLet =>
          x <= call_let r ;;
          cret (match x with
                | Some (Val tt) => Some (Val [])
                | Some (Fail e) => Some (Fail e)
                | None => None
                end)
        | Some CForget =>
          match t_concept r with
          | Some c =>
            x <= catch (_ <= need_delta ;;
                        _ <= delete_reduction cfg c (display r) ;;
                        cret []) ;;
            cret (Some x)
          | None => cret None
          end
        | Some CLabel =>
          s <= match t_concept r with
               | Some c => clift (fun x => get_label cfg (c_snap x) (c_delta x) fuel c)
               | None => cret None
               end ;;
          cret (Some (Val (txt "'" ++ match s with Some s => s | None => display r end
                             ++ txt "'")))
        | _ => cret None
        end ;;
      match done with
      | Some x => rethrow x
      | None =>
        ty <= c_concrete_type_of cfg r ;;
        if opt_cct_eqb (Some CReduction) ty then try_reducing_then_call l
        else reduce_and_call_pair l r
      end.
  End Calls.

  (** The recursion of [call] and [call_pair], cut off after [n] nested calls. *)
  Fixpoint calls (n : nat) : (tree -> CM text) * (tree -> tree -> CM text) :=
    match n with
    | O => (fun _ _ => OutOfFuel, fun _ _ _ => OutOfFuel)
    | S n =>
      let rec := calls n in
      (call_step (fst rec) (snd rec), call_pair_step (fst rec) (snd rec))
    end.
  Definition call (t : tree) : CM text := fst (calls fuel) t.

  (** zia/src/context.rs:295-312 *)
  Definition run_command (s : text) : CM text :=
    t <= ast_from_expression cfg fuel s ;;
    t <= c_expand t ;;
    t <= (fun c => obind (create_variable_concepts t c) (fun '(r, c) =>
            match r with
            | Val t => Ok (Val t, c)
            | Fail _ => Panic "create_variable_concepts: unwrap"
            end)) ;;
    call t.
  Definition execute_without_closing_scope (s : text) : CM text :=
    r <= catch (run_command s) ;;
    _ <= commit ;;
    cret (match r with Val s => s | Fail e => error_text e end).

  (** zia/src/context.rs:288-293: the answer and the new state *)
  Definition execute (s : text) (c : ctx) : outcome (text * ctx) :=
    obind (execute_without_closing_scope s c) (fun '(r, c) =>
      match r with
      | Val s => Ok (s, Ctx (c_snap c) (c_delta c) (c_cache c) [] [] (pinned c) (c_tick c))
      | Fail _ => Panic "execute: unwrap"
      end).

  (** zia/src/context.rs:789-829 *)
  Definition concrete_labels : list (string * cct) :=
    [(":=", CDefine); ("->", CReduction); ("let", CLet); ("true", CTrue); ("false", CFalse);
     ("assoc", CAssociativity); ("right", CRight); ("left", CLeft); (">", CGreaterThan);
     ("=>", CImplication); ("exists_such_that", CExistsSuchThat); ("precedes", CPrecedes);
     ("forget", CForget)]%string.
  Fixpoint label_all (l : cid) (ls : list (string * cct)) : CM unit :=
    match ls with
    | [] => cret tt
    | (s, cc) :: ls =>
      _ <= new_labelled_concept cfg (txt s) (Some cc) (Some l) ;; label_all l ls
    end.
  Definition label_concrete_concepts : CM unit :=
    _ <= need_delta ;;
    l <= new_labelled_concept cfg (txt "label_of") (Some CLabel) None ;;
    label_all l concrete_labels.

  (** zia/src/context.rs:834-847 *)
  Definition setup_commands : list string :=
    ["let (true and true) -> true";
     "let (false and _y_) -> false";
     "let (_x_ and false) -> false";
     "let ((_y_ exists_such_that) (_x_ precedes _y_) and _y_ precedes _z_) => _x_ precedes _z_";
     "let -> precedes :=";
     "let := precedes let"]%string.
  Fixpoint run_setup (cmds : list string) : CM unit :=
    match cmds with
    | [] => cret tt
    | s :: cmds =>
      (* the call to [execute], then the [debug_assert_eq!] *)
      r <= (fun c => obind (execute (txt s) c) (fun '(r, c) => Ok (Val r, c))) ;;
      _ <= clift (fun _ => dassert (dbg cfg) (text_eqb r []) "setup: debug_assert_eq") ;;
      run_setup cmds
    end.
  (** zia/src/context.rs:831-849, 129-133 *)
  Definition setup : CM unit :=
    _ <= label_concrete_concepts ;; _ <= commit ;; run_setup setup_commands.
  Definition new_context : outcome ctx :=
    obind (setup default_ctx) (fun '(r, c) =>
      match r with Val _ => Ok c | Fail e => Err e end).

  (** A session: commands one after the other, with their answers. *)
  Fixpoint run_session (cmds : list text) (c : ctx) : outcome (list text * ctx) :=
    match cmds with
    | [] => Ok ([], c)
    | s :: cmds =>
      obind (execute s c) (fun '(r, c) =>
      obind (run_session cmds c) (fun '(rs, c) => Ok (r :: rs, c)))
    end.
End Context.
