(** From the text of a command to a syntax tree (zia/src/context.rs:265-780). *)
From Verif Require Export Updater.
From Coq Require Import String List.
Import ListNotations.
Set Implicit Arguments.
Local Open Scope ctx_scope.

(** zia/src/associativity.rs:33-46; slicing beyond the ends or backwards panics. *)
Definition slice {A} (l : list A) (i j : nat) : outcome (list A) :=
  if Nat.leb i j && Nat.leb j (List.length l)
  then Ok (firstn (j - i) (skipn i l)) else Panic "slice index out of range".
Definition slice_tokens {A} (a : associativity) (tokens : list A) (prev : option nat)
    (lp : nat) : outcome (list A) :=
  match a, prev with
  | ALeft, None => slice tokens 0 lp
  | ALeft, Some i => slice tokens i lp
  | ARight, None => slice tokens lp (List.length tokens)
  | ARight, Some i => slice tokens lp i
  end.

Definition associativity_eqb (a b : associativity) : bool :=
  match a, b with ALeft, ALeft | ARight, ARight => true | _, _ => false end.

(** A [BinaryHeap<usize>] is kept as the list of its elements. *)
Definition heap_max (l : list nat) : option nat :=
  match l with [] => None | x :: l => Some (fold_left Nat.max l x) end.
(** [BinaryHeap::pop] until empty *)
Fixpoint insert_desc (n : nat) (l : list nat) : list nat :=
  match l with
  | [] => [n]
  | m :: l => if Nat.leb m n then n :: m :: l else m :: insert_desc n l
  end.
Definition heap_pops (l : list nat) : list nat := fold_right insert_desc [] l.
Fixpoint remove_one (n : nat) (l : list nat) : list nat :=
  match l with
  | [] => []
  | m :: l => if Nat.eqb n m then l else m :: remove_one n l
  end.

(** zia/src/context.rs:65-68 *)
Record token_subsequence := TokenSubsequence { ts_syntax : list tree; ts_positions : list nat }.

Section Parser.
  Variable cfg : config.
  Variable fuel : nat.

  (** zia/src/context.rs:265-286 *)
  Definition kind_of_symbol (c : ctx) (s : text) : outcome concept_kind :=
    if is_variable_symbol s then Ok KVariable
    else
      obind (concept_from_label cfg (c_snap c) (c_delta c) fuel s) (fun l =>
      match l with
      | None => Ok KNew
      | Some id =>
        obind (read_concept cfg (c_snap c) (c_delta c) id) (fun m =>
        Ok (match m_concrete m with
            | None => KAbstract id
            | Some cc => KConcrete id cc
            end))
      end).

  (** zia/src/context.rs:135-205 *)
  Definition c_lex (s : text) : CM (list lexeme) := clift (fun c => lex (kind_of_symbol c) s).
  (** zia/src/context.rs:207-263 *)
  Definition c_nest (ls : list lexeme) : CM nested := clift (fun _ => nest ls).

  Definition c_shuffle {A} (l : list A) : CM (list A) := with_search (fun _ => shuffle cfg l).
  Definition ops_of (c : ctx) : ops := search cfg (c_snap c) fuel fuel.
  Definition c_combine (l r : tree) : CM tree :=
    fun c => with_search (fun e => combine_ast cfg (c_snap c) (ops_of c) e l r) c.
  Definition c_to_ast (id : cid) : CM tree :=
    fun c => with_search (fun e => o_to_ast (ops_of c) e id) c.
  Definition c_assoc (t : tree) : CM associativity :=
    fun c => with_search (fun e => o_assoc (ops_of c) e t) c.
  Definition c_concrete_ast (cc : cct) : CM (option tree) :=
    fun c => with_search (fun e => concrete_ast cfg (c_snap c) (ops_of c) e cc) c.

  (** zia/src/context.rs:471-516 *)
  Definition ast_from_syntax_leaf (k : leafkind) (s : text) (concept : option cid) : CM tree :=
    id <= match concept with
          | Some id => cret id
          | None =>
            _ <= need_delta ;;
            l <= clift (fun x => concept_from_label cfg (c_snap x) (c_delta x) fuel s) ;;
            match l with
            | Some id => cret id
            | None =>
              l <= c_concrete_id cfg CLabel ;;
              new_labelled_concept cfg s None l
            end
          end ;;
    cret (TLeaf s (Some id) k).

  (** zia/src/context.rs:768-780 *)
  Definition ast_from_pair (l r : tree) : CM tree :=
    ty <= c_concrete_type_of cfg r ;;
    _ <= (if opt_cct_eqb (Some CExistsSuchThat) ty && is_leaf_variable l then
            fun c => Ok (Val tt, Ctx (c_snap c) (c_delta c) (c_cache c) (c_vars c)
                                     (sadd key_eqb (t_key l) (c_bound c)) (pinned c) (c_tick c))
          else cret tt) ;;
    c_combine l r.

  (** ** Precedence: zia/src/context.rs:619-766 *)

  (** Lines 639-651 *)
  Fixpoint positions_from (i : nat) (ts : list tree) : list (nat * option cid) :=
    match ts with
    | [] => []
    | t :: ts => (i, t_concept t) :: positions_from (S i) ts
    end.
  Definition concept_ids (ts : list tree) : list cid :=
    flat_map (fun t => match t_concept t with Some c => [c] | None => [] end) ts.
  Definition indices_of (ts : list tree) (c : cid) : list nat :=
    flat_map (fun '(i, o) => if option_eqb cid_eqb o (Some c) then [i] else [])
             (positions_from 0 ts).
  Definition indices_without (ts : list tree) : list nat :=
    flat_map (fun '(i, o) => match o with None => [i] | Some _ => [] end)
             (positions_from 0 ts).

  (** Lines 660-677 *)
  Fixpoint related_concepts (ids : list cid) (entries : list (cid * cid)) (acc : list cid)
    : CM (list cid) :=
    match entries with
    | [] => cret acc
    | (r, comp) :: entries =>
      let acc := if smem cid_eqb r ids then sadd cid_eqb r acc else acc in
      m <= c_read cfg comp ;;
      let acc := fold_left (fun acc '(l, _) => if smem cid_eqb l ids then sadd cid_eqb l acc else acc)
                           (m_iter_hand_of cfg m HRight) acc in
      related_concepts ids entries acc
    end.

  (** Lines 679-701 *)
  Definition precedes (a b : cid) : CM (option cct) :=
    t <= (fun c => with_search (fun e =>
            let o := ops_of c in
            sbind (concrete_ast cfg (c_snap c) o e CPrecedes) (fun p =>
            sbind (slift (unwrap p "precedes: unwrap")) (fun p =>
            sbind (o_to_ast o e a) (fun ta =>
            sbind (o_to_ast o e b) (fun tb =>
            sbind (combine_ast cfg (c_snap c) o e p tb) (fun pb =>
            sbind (combine_ast cfg (c_snap c) o e ta pb) (fun apb =>
            smap fst (o_nf o e apb None))))))))
          c) ;;
    c_concrete_type_of cfg t.

  (** The loop labelled ['b] of lines 704-737; [None] means it ran to its end. *)
  Fixpoint place_concept (c : cid) (all : list cid) (lowest : list cid)
    : CM (option (list cid)) :=
    match lowest with
    | [] => cret None
    | l :: lowest =>
      ty <= precedes c l ;;
      match ty with
      | Some CTrue => cret (Some all)
      | Some CFalse =>
        ty <= precedes l c ;;
        match ty with
        | Some CTrue => cret (Some [c])
        | Some CFalse => cret (Some (sadd cid_eqb c all))
        | Some CRight | None => place_concept c all lowest
        | Some _ => clift (fun _ => Panic "precedes reduces to")
        end
      | Some CRight | None =>
        ty <= precedes l c ;;
        match ty with
        | Some CTrue => cret (Some [c])
        | Some CFalse | Some CRight | None => place_concept c all lowest
        | Some _ => clift (fun _ => Panic "precedes reduces to")
        end
      | Some _ => clift (fun _ => Panic "precedes reduces to")
      end
    end.
  (** The loop labelled ['a] of lines 703-739 *)
  Fixpoint lowest_concepts (cs : list cid) (lowest : list cid) : CM (list cid) :=
    match cs with
    | [] => cret lowest
    | c :: cs =>
      order <= c_shuffle lowest ;;
      r <= place_concept c lowest order ;;
      lowest_concepts cs match r with Some l => l | None => sadd cid_eqb c lowest end
    end.

  (** Lines 744-751 and 756-763: the positions of some concepts, with their syntax *)
  Fixpoint positions_of (ts : list tree) (cs : list cid) : CM (list nat) :=
    match cs with
    | [] => cret []
    | c :: cs =>
      here <= c_shuffle (indices_of ts c) ;;
      rest <= positions_of ts cs ;;
      cret (here ++ rest)
    end.
  Definition syntax_at (ts : list tree) (ps : list nat) : list tree :=
    flat_map (fun i => match nth_error ts i with Some t => [t] | None => [] end) ps.

  (** zia/src/context.rs:619-766 *)
  Definition lowest_precedence_info (ts : list tree) : CM token_subsequence :=
    let ids := concept_ids ts in
    p <= c_concrete_id cfg CPrecedes ;;
    p <= clift (fun _ => unwrap p "Precede concept must exist") ;;
    m <= c_read cfg p ;;
    related <= related_concepts ids (m_iter_hand_of cfg m HLeft) [] ;;
    order <= c_shuffle related ;;
    lowest <= lowest_concepts order [] ;;
    match lowest with
    | [] =>
      ps <= positions_of ts (filter (fun c => negb (smem cid_eqb c related)) ids) ;;
      cret (TokenSubsequence (syntax_at ts ps) (indices_without ts ++ ps))
    | _ =>
      order <= c_shuffle lowest ;;
      ps <= positions_of ts order ;;
      cret (TokenSubsequence (syntax_at ts ps) ps)
    end.

  (** zia/src/context.rs:407-420 *)
  Fixpoint common_associativity (a : option associativity) (ts : list tree)
    : CM (option associativity) :=
    match ts with
    | [] => cret a
    | t :: ts =>
      x <= c_assoc t ;;
      match a with
      | None => common_associativity (Some x) ts
      | Some y =>
        if associativity_eqb x y then common_associativity (Some x) ts
        else cfail (DifferentAssociativity (display t) x y)
      end
    end.

  Section Lists.
    (** [ast_from_syntax_list] on shorter lists *)
    Variable parse : list tree -> CM tree.

    (** zia/src/context.rs:546-615 *)
    Definition try_fold_handler (tokens : list tree) (state : option (tree * nat)) (lp : nat)
        (a : associativity) : CM (tree * nat) :=
      sl <= clift (fun _ => slice_tokens a tokens (option_map snd state) lp) ;;
      match sl with
      | [] => cfail AmbiguousExpression
      | first :: rest =>
        let n := List.length sl in
        let edge_index := match a with ALeft => n - 1 | ARight => 0 end in
        lp_with_rest <=
          (if Nat.eqb lp edge_index then
             let edge := nth edge_index sl first in
             if Nat.eqb n 1 then cret edge
             else
               match a with
               | ALeft =>
                 r <= (if Nat.ltb n 3 then cret (nth (n - 1) sl first)
                       else parse (firstn (n - 1) sl)) ;;
                 c_combine r edge
               | ARight =>
                 r <= (if Nat.ltb n 3 then cret (nth 1 sl first) else parse rest) ;;
                 c_combine edge r
               end
           else parse sl) ;;
        t <= match state, a with
             | None, _ => cret lp_with_rest
             | Some (e, _), ALeft => c_combine e lp_with_rest
             | Some (e, _), ARight => c_combine lp_with_rest e
             end ;;
        cret (t, lp)
      end.

    (** zia/src/context.rs:427-440 *)
    Fixpoint fold_right_assoc (tokens : list tree) (min : option nat)
        (tail : option (tree * nat)) (lps : list nat)
      : CM (option nat * option (tree * nat)) :=
      match lps with
      | [] => cret (min, tail)
      | lp :: lps =>
        if option_eqb Nat.eqb (Some lp) min then fold_right_assoc tokens min tail lps
        else
          tail <= try_fold_handler tokens tail lp ARight ;;
          fold_right_assoc tokens (Some lp) (Some tail) lps
      end.
    (** zia/src/context.rs:453-464 *)
    Fixpoint fold_left_assoc (tokens : list tree) (state : option (tree * nat))
        (lps : list nat) : CM (option (tree * nat)) :=
      match lps with
      | [] => cret state
      | lp :: lps =>
        st <= try_fold_handler tokens state lp ALeft ;;
        fold_left_assoc tokens (Some st) lps
      end.
  End Lists.

  (** The order in which [BinaryHeap::iter] visits the elements: the array starts with
      the maximum; nothing is assumed about the rest (context.rs:454). *)
  Definition heap_iter (l : list nat) : CM (list nat) :=
    match heap_max l with
    | None => cret []
    | Some x => rest <= c_shuffle (remove_one x l) ;; cret (x :: rest)
    end.

  (** zia/src/context.rs:382-469.  The recursion is on strictly shorter lists;
      [n] bounds the length. *)
  Fixpoint ast_from_syntax_list (n : nat) (ts : list tree) : CM tree :=
    match n with
    | O => fun _ => OutOfFuel
    | S n =>
      match ts with
      | [] => clift (fun _ => Panic "ast_from_syntax_list called with empty list!")
      | [s] => cret s
      | [l; r] => cret (new_pair l r)
      | _ =>
        info <= lowest_precedence_info ts ;;
        match ts_positions info with
        | [] => cfail (LowestPrecendenceNotFound (map display ts))
        | _ =>
          a <= common_associativity None (ts_syntax info) ;;
          match a with
          | Some ARight =>
            ' (min, tail) <= fold_right_assoc (ast_from_syntax_list n) ts None None
                               (heap_pops (ts_positions info)) ;;
            match tail, min with
            | Some (tail, _), Some min =>
              if Nat.eqb min 0 then cret tail
              else
                head <= ast_from_syntax_list n (firstn min ts) ;;
                c_combine head tail
            | _, _ => cfail AmbiguousExpression
            end
          | Some ALeft =>
            order <= heap_iter (ts_positions info) ;;
            st <= fold_left_assoc (ast_from_syntax_list n) ts None order ;;
            match st with
            | Some (t, _) => cret t
            | None => cfail AmbiguousExpression
            end
          | None => cfail AmbiguousExpression
          end
        end
      end
    end.
  Definition parse_list (ts : list tree) : CM tree :=
    ast_from_syntax_list (S (List.length ts)) ts.

  (** zia/src/context.rs:518-544 *)
  Fixpoint ast_from_nested_syntax (n : nested) : CM tree :=
    match n with
    | NLeaf k s c => ast_from_syntax_leaf k s c
    | NParent children _ =>
      (* lines 359-379: the children, left to right *)
      ts <= (fix all (ns : list nested) : CM (list tree) :=
               match ns with
               | [] => cret []
               | n :: ns =>
                 t <= ast_from_nested_syntax n ;;
                 ts <= all ns ;;
                 cret (t :: ts)
               end) children ;;
      match ts with
      | [l; r] => ast_from_pair l r
      | _ => parse_list ts
      end
    end.
  (** zia/src/context.rs:359-379 *)
  Definition syntax_list_for_nested_syntax (n : nested) : CM (list tree) :=
    match n with
    | NParent children _ =>
      (fix all (ns : list nested) : CM (list tree) :=
         match ns with
         | [] => cret []
         | n :: ns =>
           t <= ast_from_nested_syntax n ;;
           ts <= all ns ;;
           cret (t :: ts)
         end) children
    | NLeaf k s c => t <= ast_from_syntax_leaf k s c ;; cret [t]
    end.

  (** zia/src/context.rs:349-357 *)
  Definition ast_from_expression (s : text) : CM tree :=
    ls <= c_lex s ;;
    n <= c_nest ls ;;
    ts <= syntax_list_for_nested_syntax n ;;
    parse_list ts.
End Parser.
