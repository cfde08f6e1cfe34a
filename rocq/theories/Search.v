(** Evaluation (zia/src/context_search.rs) with its caches
    (zia/src/context_cache/macro.rs). *)
From Verif Require Export Reason.
From Coq Require Import String List.
Import ListNotations.
Set Implicit Arguments.

(** ** Caches and search state *)

(** zia/src/context_cache/macro.rs:14-106.  A context's cache: its own reduction map
    (the head of a [ReductionCacheList] without tail), its syntax trees and its
    inferences.  [contains_bound_variable_syntax] is never written to by the source and
    is left out. *)
Record cache := Cache {
  k_red : list (key * rresult);
  k_syn : list (cid * tree);
  k_inf : list (cid * rresult)
}.
(** zia/src/context_cache/macro.rs:21-30 *)
Definition empty_cache : cache := Cache [] [] [].

(** The maps behind the shared references of a running search.  Handle 0 is the cache of
    the context the search was started from; spawned searches get new handles.  [s_tick]
    numbers local hash collections. *)
Record sstate := SState {
  s_red : list (list (key * rresult));
  s_syn : list (list (cid * tree));
  s_inf : list (cid * rresult);
  s_tick : nat
}.

(** zia/src/context_search.rs:38-62 ([ContextSearch]); the snapshot is a parameter of the
    functions below. *)
Record env := Env {
  e_delta : delta;
  e_mask : mask_list;
  e_eval : list key;       (* syntax_evaluating *)
  e_infer : list cid;      (* concept_inferring *)
  e_bound : list key;      (* bound_variable_syntax *)
  e_reds : list nat;       (* reductions: handles, head first *)
  e_syn : nat              (* syntax_trees *)
}.

(** zia/src/context_search.rs:1301-1320 *)
Definition new_env (d : delta) (bound : list key) : env := Env d [[]] [] [] bound [0] 0.
Definition start_state (k : cache) (tick : nat) : sstate :=
  SState [k_red k] [k_syn k] (k_inf k) tick.
(** What the context's cache holds after a search. *)
Definition final_cache (s : sstate) : cache :=
  Cache (hd [] (s_red s)) (hd [] (s_syn s)) (s_inf s).

Definition SM (A : Type) := sstate -> outcome (A * sstate).
Definition sret {A} (a : A) : SM A := fun s => Ok (a, s).
Definition sbind {A B} (m : SM A) (f : A -> SM B) : SM B :=
  fun s => obind (m s) (fun '(a, s) => f a s).
Definition slift {A} (m : outcome A) : SM A := fun s => obind m (fun a => Ok (a, s)).

Declare Scope search_scope.
Delimit Scope search_scope with search.
Notation "x <~ m ;; k" := (sbind m (fun x => k))
  (at level 61, m at next level, right associativity) : search_scope.
Notation "' p <~ m ;; k" := (sbind m (fun x => match x with p => k end))
  (at level 61, p pattern, m at next level, right associativity) : search_scope.
Local Open Scope search_scope.

(** [Option::and_then] and [Option::or_else] over effectful closures. *)
Definition and_then {A B} (m : SM (option A)) (f : A -> SM (option B)) : SM (option B) :=
  o <~ m ;; match o with Some a => f a | None => sret None end.
Definition or_else {A} (m1 m2 : SM (option A)) : SM (option A) :=
  o <~ m1 ;; match o with Some a => sret (Some a) | None => m2 end.
Definition opt_then {A B} (o : option A) (f : A -> SM (option B)) : SM (option B) :=
  match o with Some a => f a | None => sret None end.
Definition smap {A B} (f : A -> B) (m : SM A) : SM B := a <~ m ;; sret (f a).

(** [Iterator::find_map] over effectful closures. *)
Fixpoint find_map {A B} (f : A -> SM (option B)) (l : list A) : SM (option B) :=
  match l with
  | [] => sret None
  | a :: l => or_else (f a) (find_map f l)
  end.

Definition fresh_tick : SM nat :=
  fun s => Ok (s_tick s, SState (s_red s) (s_syn s) (s_inf s) (S (s_tick s))).
(** Iterating over a local hash collection. *)
Definition shuffle {A} (cfg : config) (l : list A) : SM (list A) :=
  t <~ fresh_tick ;; sret (ord cfg (OTemp t) A l).

(** [SR::share(ReductionCache::default())] *)
Definition new_red_cache : SM nat :=
  fun s => Ok (List.length (s_red s),
               SState (s_red s ++ [[]]) (s_syn s) (s_inf s) (s_tick s)).
Definition new_syn_cache : SM nat :=
  fun s => Ok (List.length (s_syn s),
               SState (s_red s) (s_syn s ++ [[]]) (s_inf s) (s_tick s)).

(** zia/src/context_cache/macro.rs:186-199: the cached answer, if any *)
Fixpoint lookup_red (hs : list nat) (k : key) (reds : list (list (key * rresult)))
  : option rresult :=
  match hs with
  | [] => None
  | h :: hs =>
    match aget key_eqb k (nth h reds []) with
    | Some r => Some r
    | None => lookup_red hs k reds
    end
  end.
Definition cached_reduction (e : env) (t : tree) : SM (option rresult) :=
  fun s => Ok (lookup_red (e_reds e) (t_key t) (s_red s), s).
(** zia/src/context_cache/macro.rs:201-213 *)
Definition insert_reduction (e : env) (t : tree) (r : rresult) : SM unit :=
  fun s =>
    let fits := negb (t_is_variable t) &&
                match r with
                | None => true
                | Some (t', _) => negb (key_eqb (t_key t') (t_key t))
                end in
    Ok (tt, if fits then
              SState (upd_nth (hd 0 (e_reds e)) (aset key_eqb (t_key t) r) (s_red s))
                     (s_syn s) (s_inf s) (s_tick s)
            else s).
(** zia/src/context_cache/macro.rs:59-67 *)
Definition cached_syntax (e : env) (c : cid) : SM (option tree) :=
  fun s => Ok (aget cid_eqb c (nth (e_syn e) (s_syn s) []), s).
(** zia/src/context_cache/macro.rs:69-77 *)
Definition insert_syntax (e : env) (m : mixed) (t : tree) : SM unit :=
  fun s =>
    Ok (tt, if m_anonymous m then s
            else SState (s_red s) (upd_nth (e_syn e) (aset cid_eqb (m_id m) t) (s_syn s))
                        (s_inf s) (s_tick s)).
(** zia/src/context_cache/macro.rs:125-148.  [spawn] (lines 38-47) shares the list. *)
Definition cached_inference (c : cid) : SM (option rresult) :=
  fun s => Ok (aget cid_eqb c (s_inf s), s).
Definition insert_inference (c : cid) (r : rresult) : SM unit :=
  fun s => Ok (tt, SState (s_red s) (s_syn s) (aset cid_eqb c r (s_inf s)) (s_tick s)).

(** zia/src/associativity.rs:10-30 *)
Definition parenthesise (s : text) : text := c_open :: s ++ [c_close].
Definition display_joint_left (a : associativity) (l r : tree) : text :=
  let s := display l ++ c_space :: display r in
  match a with ALeft => s | ARight => parenthesise s end.
Definition display_joint_right (a : associativity) (l r : tree) : text :=
  let s := display l ++ c_space :: display r in
  match a with ALeft => parenthesise s | ARight => s end.

(** zia/src/concepts/mod.rs:862-864 *)
Definition format_string (s : text) : text := txt """" ++ s ++ txt """".

(** ** The mutually recursive methods

    The methods of [ContextSearch] call one another without bound, so each is written
    over a record of the recursive ones and the knot is tied with fuel at the end. *)
Record ops := Ops {
  o_reduce : env -> tree -> SM rresult;
  o_to_ast : env -> cid -> SM tree;
  o_assoc : env -> tree -> SM associativity;
  o_expand : env -> tree -> SM tree;
  o_nf : env -> tree -> option reason -> SM (tree * option reason);
  o_evidence : env -> tree -> tree -> SM (option reason);
  o_examples : forall R : Type,
      env -> tree -> list cid -> (ex_subs -> SM (option R)) -> SM (option R)
}.

Section Search.
  Variables (cfg : config) (snap : snapshot).
  (* fuel of the reader functions *)
  Variable rf : nat.

  Definition read (e : env) (c : cid) : SM mixed := slift (read_concept cfg snap (e_delta e) c).
  (** zia/src/context_search.rs:1221-1226 *)
  Definition concrete_id (e : env) (cc : cct) : SM (option cid) :=
    slift (concrete_concept_id cfg snap (e_delta e) cc).
  (** zia/src/context_search.rs:1205-1210 *)
  Definition concrete_type (e : env) (c : cid) : SM (option cct) :=
    slift (concrete_concept_type cfg snap (e_delta e) c).
  (** zia/src/context_search.rs:1213-1218 *)
  Definition concrete_type_of_ast (e : env) (t : tree) : SM (option cct) :=
    match t_concept t with
    | Some c => concrete_type e c
    | None => sret None
    end.
  (** zia/src/context_search.rs:1192-1202 *)
  Definition is_concrete_type (e : env) (cc : cct) (c : cid) : SM (option cid) :=
    ty <~ concrete_type e c ;;
    sret (if opt_cct_eqb (Some cc) ty then Some c else None).
  (** zia/src/context_search.rs:1182-1189 *)
  Definition composition_of_concept (e : env) (c : cid) : SM (option (cid * cid)) :=
    smap m_composition (read e c).

  (** zia/src/context_search.rs:1167-1174 *)
  Definition is_free_variable (e : env) (c : cid) : SM bool :=
    m <~ read e c ;;
    sret (m_free m &&
          match ml_tail (e_mask e) with
          | None => true
          | Some ml => match ml_get ml c with None => true | Some _ => false end
          end).
  (** zia/src/context_search.rs:1162-1164, 1177-1179 *)
  Definition is_leaf_variable_concept (e : env) (c : cid) : SM bool :=
    f <~ is_free_variable e c ;;
    if f : bool then
      comp <~ composition_of_concept e c ;;
      sret (match comp with None => true | Some _ => false end)
    else sret false.

  (** zia/src/context_search.rs:1242-1264 *)
  Fixpoint contains_bound_variable_syntax (e : env) (t : tree) : SM bool :=
    let here :=
      if smem key_eqb (t_key t) (e_bound e) then sret true
      else match t_concept t with
           | None => sret false
           | Some c => smap m_bounded (read e c)
           end in
    match t with
    | TLeaf _ _ _ => here
    | TBranch _ _ l r _ _ =>
      bl <~ contains_bound_variable_syntax e l ;;
      if bl : bool then sret true
      else br <~ contains_bound_variable_syntax e r ;;
           if br : bool then sret true else here
    end.

  (** zia/src/context_search.rs:1087-1103, zia/src/context_cache/macro.rs:38-47 *)
  Definition spawn (e : env) (h : nat) (d : delta) : SM env :=
    sy <~ new_syn_cache ;;
    sret (Env d (e_mask e) (e_eval e) (e_infer e) (e_bound e) (h :: e_reds e) sy).
  (** zia/src/context_search.rs:1230-1239 *)
  Definition with_mask (e : env) (ml : mask_list) : env :=
    Env (e_delta e) ml (e_eval e) (e_infer e) (e_bound e) (e_reds e) (e_syn e).
  Definition with_evaluating (e : env) (k : key) : env :=
    Env (e_delta e) (e_mask e) (sadd key_eqb k (e_eval e)) (e_infer e) (e_bound e)
        (e_reds e) (e_syn e).
  Definition with_inferring (e : env) (c : option cid) : env :=
    match c with
    | None => e
    | Some c => Env (e_delta e) (e_mask e) (e_eval e) (sadd cid_eqb c (e_infer e))
                    (e_bound e) (e_reds e) (e_syn e)
    end.

  (** zia/src/context_search.rs:1128-1139: merging the masks of the two branches *)
  Fixpoint merge_masks (lm rm : mask) : option mask :=
    match lm with
    | [] => Some rm
    | (k, v) :: lm =>
      match aget cid_eqb k rm with
      | Some w => if key_eqb (t_key w) (t_key v) then merge_masks lm rm else None
      | None => merge_masks lm (aset cid_eqb k v rm)
      end
    end.

  (** zia/src/context_search.rs:1108-1159 *)
  Fixpoint check_generalisation (e : env) (t : tree) (g : cid) : SM (option mask) :=
    f <~ is_free_variable e g ;;
    if negb f then sret None
    else if smem key_eqb (t_key t) (e_bound e) then sret None
    else
      b <~ match t_concept t with
           | Some c => smap m_bounded (read e c)
           | None => sret false
           end ;;
      if b : bool then sret None
      else
        comp <~ composition_of_concept e g ;;
        match comp with
        | None => sret (Some [(g, t)])
        | Some (gl, gr) =>
          match t with
          | TLeaf _ _ _ => sret None
          | TBranch _ _ l r _ _ =>
            fl <~ is_free_variable e gl ;;
            fr <~ is_free_variable e gr ;;
            let same t g := option_eqb cid_eqb (t_concept t) (Some g) in
            match fl, fr with
            | true, true =>
              lm <~ check_generalisation e l gl ;;
              rm <~ check_generalisation e r gr ;;
              sret (match lm, rm with
                    | Some lm, Some rm => merge_masks lm rm
                    | _, _ => None
                    end)
            | true, false => if same r gr then check_generalisation e l gl else sret None
            | false, true => if same l gl then check_generalisation e r gr else sret None
            | false, false => sret (if same l gl && same r gr then Some [] else None)
            end
          end
        end.

  (** zia/src/context_search.rs:357-393.  The order in which the inner sets are visited
      only affects the order of insertion into the result, a set. *)
  Fixpoint add_compositions (e : env) (h : hand) (gs : list cid) (acc : list cid)
    : SM (list cid) :=
    match gs with
    | [] => sret acc
    | g :: gs =>
      m <~ read e g ;;
      add_compositions e h gs (sextend cid_eqb acc (m_iter_composition_ids cfg m h))
    end.
  Definition concept_list (t : tree) : list cid :=
    match t_concept t with Some c => [c] | None => [] end.
  Fixpoint find_generalisations (e : env) (t : tree) : SM (list cid) :=
    match t with
    | TLeaf _ _ _ => sret []
    | TBranch _ _ l r _ _ =>
      acc <~ add_compositions e HLeft (concept_list l) [] ;;
      acc <~ add_compositions e HRight (concept_list r) acc ;;
      gl <~ find_generalisations e l ;;
      acc <~ add_compositions e HLeft gl acc ;;
      gr <~ find_generalisations e r ;;
      add_compositions e HRight gr acc
    end.

  Section Step.
    Variable o : ops.

    (** zia/src/context_search.rs:901-926 *)
    Definition display_joint (e : env) (l r : tree) : SM text :=
      ls <~ (if existsb is_whitespace (display l) then
               match t_exp l with
               | None => sret (display l)
               | Some (ll, lr) =>
                 a <~ o_assoc o e lr ;; sret (display_joint_left a ll lr)
               end
             else sret (display l)) ;;
      rs <~ (if existsb is_whitespace (display r) then
               match t_exp r with
               | None => sret (display r)
               | Some (rl, rr) =>
                 a <~ o_assoc o e rl ;; sret (display_joint_right a rl rr)
               end
             else sret (display r)) ;;
      sret (ls ++ c_space :: rs).
    (** zia/src/context_search.rs:892-899 *)
    Definition join (e : env) (l r : tree) : SM tree :=
      s <~ display_joint e l r ;; sret (bind_pair (from_text s) l r).

    Definition composition_concept (e : env) (l r : tree) : SM (option cid) :=
      match t_concept l, t_concept r with
      | Some lc, Some rc => m <~ read e lc ;; sret (m_find_as_hand m rc HLeft)
      | _, _ => sret None
      end.

    (** zia/src/context_search.rs:868-890 *)
    Definition combine_ast (e : env) (l r : tree) : SM tree :=
      c <~ composition_concept e l r ;;
      t <~ join e l r ;;
      match c with
      | Some c => slift (bind_concept_to_syntax cfg snap (e_delta e) t c)
      | None => sret t
      end.

    (** zia/src/context_search.rs:325-355 *)
    Definition contract_pair (e : env) (l r : tree) : SM tree :=
      c <~ composition_concept e l r ;;
      t <~ match c with
           | Some c =>
             lab <~ slift (get_label cfg snap (e_delta e) rf c) ;;
             s <~ match lab with
                  | Some s => sret s
                  | None => display_joint e l r
                  end ;;
             slift (bind_concept_to_syntax cfg snap (e_delta e) (from_text s) c)
           | None => smap from_text (display_joint e l r)
           end ;;
      sret (bind_pair t l r).

    (** zia/src/context_search.rs:303-322 *)
    Fixpoint substitute (e : env) (t : tree) (m : mask) : SM tree :=
      match match t_concept t with Some c => aget cid_eqb c m | None => None end with
      | Some t' => sret t'
      | None =>
        match t with
        | TLeaf _ _ _ => sret t
        | TBranch _ _ l r _ _ =>
          l' <~ substitute e l m ;;
          r' <~ substitute e r m ;;
          contract_pair e l' r'
        end
      end.

    (** zia/src/context_search.rs:147-152 *)
    Definition concrete_ast (e : env) (cc : cct) : SM (option tree) :=
      and_then (concrete_id e cc) (fun c => smap Some (o_to_ast o e c)).

    (** zia/src/context_search.rs:928-950 *)
    Definition get_associativity (e : env) (t : tree) : SM associativity :=
      c <~ concrete_id e CAssociativity ;;
      match c with
      | None => sret ARight
      | Some c =>
        a <~ o_to_ast o e c ;;
        at_ <~ combine_ast e a t ;;
        r <~ o_reduce o e at_ ;;
        ty <~ match r with
              | Some (t, _) => concrete_type_of_ast e t
              | None => sret None
              end ;;
        sret (if opt_cct_eqb (Some CLeft) ty then ALeft else ARight)
      end.

    (** zia/src/context_search.rs:835-866 *)
    Definition to_ast (e : env) (c : cid) : SM tree :=
      match ml_get (e_mask e) c with
      | Some t => sret t
      | None =>
        cached <~ cached_syntax e c ;;
        match cached with
        | Some t => sret t
        | None =>
          m <~ read e c ;;
          lab <~ match m_string m with
                 | Some s => sret (Some (format_string s))
                 | None => slift (get_label cfg snap (e_delta e) rf c)
                 end ;;
          t <~ match lab with
               | Some s => slift (bind_concept_to_syntax cfg snap (e_delta e) (from_text s) c)
               | None =>
                 match m_composition m with
                 | Some (l, r) =>
                   lt <~ o_to_ast o e l ;;
                   rt <~ o_to_ast o e r ;;
                   combine_ast e lt rt
                 | None => sret (new_syntax_from_leaf_concept m)
                 end
               end ;;
          _ <~ insert_syntax e m t ;;
          sret t
        end
      end.

    (** zia/src/context_search.rs:953-975 *)
    Definition expand (e : env) (t : tree) : SM tree :=
      match t_concept t with
      | None =>
        match t_exp t with
        | Some (l, r) =>
          l' <~ o_expand o e l ;;
          r' <~ o_expand o e r ;;
          combine_ast e l' r'
        | None => sret t
        end
      | Some c =>
        comp <~ composition_of_concept e c ;;
        match comp with
        | Some (l, r) =>
          lt <~ o_to_ast o e l ;;
          l' <~ o_expand o e lt ;;
          rt <~ o_to_ast o e r ;;
          r' <~ o_expand o e rt ;;
          combine_ast e l' r'
        | None => o_to_ast o e c
        end
      end.

    (** zia/src/context_search.rs:396-412 *)
    Definition normal_form (e : env) (t : tree) (why : option reason)
      : SM (tree * option reason) :=
      r <~ o_reduce o e t ;;
      match r with
      | None => sret (t, why)
      | Some (t', reason) => o_nf o e t' (Some (recursive_reason why reason t))
      end.
    Definition recursively_reduce (e : env) (t : tree) : SM (tree * option reason) :=
      o_nf o e t None.

    (** zia/src/reduction_reason.rs:240-261 *)
    Definition determine_evidence (e : env) (l r : tree) : SM (option reason) :=
      and_then (o_reduce o e l) (fun '(l', reason) =>
        if key_eqb (t_key l') (t_key r) then sret (Some reason)
        else and_then (o_evidence o e l' r) (fun new_reason =>
               sret (Some (RRecursive l new_reason reason)))).

    (** zia/src/reduction_reason.rs:305-341 *)
    Definition determine_reduction_truth (e : env) (l r : tree)
      : SM (option (bool * reason)) :=
      if key_eqb (t_key l) (t_key r) then sret (Some (false, RSyntaxCannotReduceToItself))
      else
        lr <~ o_evidence o e l r ;;
        rl <~ o_evidence o e r l ;;
        match lr, rl with
        | Some _, Some _ => slift (Panic "reduce to each other?!")
        | Some reason, None => sret (Some (true, RLeftReducesToRight reason l r))
        | None, Some reason => sret (Some (false, RRightReducesToLeft reason l r))
        | None, None => sret None
        end.

    (** zia/src/context_search.rs:1011-1031, 1032-1056: one direction of a comparison.
        Returns the concrete type of the answer and the reason noted on the way. *)
    Definition compare_one (e : env) (h : nat) (t : tree)
      : SM (option cct * option reason) :=
      if smem key_eqb (t_key t) (e_eval e) then
        c <~ cached_reduction e t ;;
        match c with
        | Some (Some (t', r)) =>
          ty <~ concrete_type_of_ast e t' ;; sret (ty, Some r)
        | _ => sret (None, None)
        end
      else
        e' <~ spawn e h (e_delta e) ;;
        ' (t', r) <~ recursively_reduce (with_evaluating e' (t_key t)) t ;;
        ty <~ concrete_type_of_ast e t' ;;
        sret (ty, r).

    (** zia/src/context_search.rs:978-1085 *)
    Definition compare (e : env) (a b : tree) : SM (comparison * comparison_reason) :=
      if key_eqb (t_key a) (t_key b) then sret (EqualTo, CRSameSyntax)
      else
        g <~ concrete_id e CGreaterThan ;;
        match g with
        | None => sret (Incomparable, CRNoGreaterThanConcept)
        | Some g =>
          gt <~ o_to_ast o e g ;;
          gb <~ combine_ast e gt b ;;
          agb <~ combine_ast e a gb ;;
          ga <~ combine_ast e gt a ;;
          bga <~ combine_ast e b ga ;;
          h <~ new_red_cache ;;
          ' (ty, r) <~ compare_one e h agb ;;
          ' (tyr, rr) <~ compare_one e h bga ;;
          c <~ match ty, tyr with
               | Some CFalse, Some CFalse => sret EqualTo
               | Some CTrue, Some CTrue => slift (Panic "both greater than and less than")
               | Some CTrue, _ => sret GreaterThan
               | _, Some CTrue => sret LessThan
               | Some CFalse, _ => sret LessThanOrEqualTo
               | _, Some CFalse => sret GreaterThanOrEqualTo
               | _, _ => sret Incomparable
               end ;;
          cr <~ slift (simplify_reasoning r rr) ;;
          sret (c, cr)
        end.

    (** zia/src/context_search.rs:791-832 *)
    Definition reduce_by_expanded_right_branch (e : env) (l rl rr : tree) : SM rresult :=
      ty <~ concrete_type_of_ast e rl ;;
      match ty with
      | Some CGreaterThan =>
        ' (c, cr) <~ compare e l rr ;;
        and_then (match c with
                  | GreaterThan => concrete_ast e CTrue
                  | EqualTo | LessThan | LessThanOrEqualTo => concrete_ast e CFalse
                  | GreaterThanOrEqualTo | Incomparable => sret None
                  end)
                 (fun t => sret (Some (t, RComparison cr)))
      | Some CReduction =>
        and_then (determine_reduction_truth e l rr) (fun '(x, reason) =>
          and_then (concrete_ast e (if x : bool then CTrue else CFalse)) (fun t =>
            sret (Some (t, reason))))
      | _ => sret None
      end.

    (** zia/src/context_search.rs:447-453 *)
    Definition find_example (e : env) (g : tree) (truths : list cid) : SM (option ex_subs) :=
      o_examples o e g truths (fun s => sret (Some s)).

    (** What reduces to a concept, then the concept itself (e.g. lines 634-638). *)
    Definition equivalence_set (e : env) (c : cid) : SM (list cid) :=
      m <~ read e c ;; sret (m_reduces_from cfg m ++ [c]).

    (** zia/src/context_search.rs:738-788 *)
    Definition half_generalisation (e : env) (gen nongen : tree) (eqs : list cid)
        (nongen_hand : hand) : SM (option ex_subs) :=
      find_map (fun c =>
        comp <~ composition_of_concept e c ;;
        match comp with
        | None => sret None
        | Some (l, r) =>
          let '(eq_nongen, eq_gen) :=
            match nongen_hand with HLeft => (l, r) | HRight => (r, l) end in
          if negb (option_eqb cid_eqb (Some eq_nongen) (t_concept nongen)) then
            m <~ read e eq_nongen ;;
            if m_free m then
              and_then (find_example e gen [eq_gen]) (fun subs =>
                sret (es_merge subs (ES [] [(eq_nongen, nongen)])))
            else sret None
          else
            or_else (find_example e gen [eq_gen])
              (opt_then (t_concept nongen) (fun nongen_id =>
                 let example_hand :=
                   match nongen_hand with
                   | HLeft => if cid_eqb l nongen_id then Some r else None
                   | HRight => if cid_eqb r nongen_id then Some l else None
                   end in
                 opt_then example_hand (fun ex =>
                   ext <~ o_to_ast o e ex ;;
                   match check_example ext gen with
                   | Some s => sret (Some s)
                   | None =>
                     m <~ read e ex ;;
                     find_example e gen (ex :: m_reduces_from cfg m)
                   end)))
        end) eqs.

    (** zia/src/context_search.rs:640-709: an example of a composition both of whose
        hands are generalised *)
    Definition example_of_both (e : env) (l r : tree) (el er : cid) : SM (option ex_subs) :=
      eql <~ equivalence_set e el ;;
      o_examples o e l eql (fun lex =>
        r' <~ substitute e (subst_keys r (es_gen lex)) (es_ex lex) ;;
        eqr <~ equivalence_set e er ;;
        b <~ contains_bound_variable_syntax e r' ;;
        if b : bool then
          o_examples o e r' eqr (fun rex => sret (es_merge rex lex))
        else
          ' (nf, _) <~ recursively_reduce e r' ;;
          sret (match t_concept nf with
                | Some c => if smem cid_eqb c eqr then Some lex else None
                | None => None
                end)).

    (** zia/src/context_search.rs:603-736; the iterator is consumed by [k], which stops
        at the first [Some]. *)
    Definition branched_examples {R} (e : env) (l r : tree) (eqs : list cid)
        (k : ex_subs -> SM (option R)) : SM (option R) :=
      bl <~ contains_bound_variable_syntax e l ;;
      br <~ contains_bound_variable_syntax e r ;;
      match bl, br with
      | true, true =>
        find_map (fun c =>
          comp <~ composition_of_concept e c ;;
          match comp with
          | None => sret None
          | Some (el, er) => and_then (example_of_both e l r el er) k
          end) eqs
      | true, false => and_then (half_generalisation e l r eqs HRight) k
      | false, true => and_then (half_generalisation e r l eqs HLeft) k
      | false, false => sret None
      end.

    (** zia/src/context_search.rs:573-600 *)
    Definition find_examples {R} (e : env) (g : tree) (eqs : list cid)
        (k : ex_subs -> SM (option R)) : SM (option R) :=
      match t_exp g with
      | Some (l, r) => branched_examples e l r eqs k
      | None =>
        _ <~ (if dbg cfg then
                b <~ contains_bound_variable_syntax e g ;;
                slift (dassert true b "Generalisation doesn't contain bound variables")
              else sret tt) ;;
        find_map (fun c =>
          t <~ o_to_ast o e c ;;
          k (ES [(t_key g, t)] [])) eqs
      end.

    (** zia/src/context_search.rs:456-571 *)
    Definition find_examples_of_inferred_reduction (e : env) (t : tree) : SM rresult :=
      and_then (concrete_id e CImplication) (fun imp =>
      and_then (concrete_ast e CReduction) (fun red_op =>
        ' (v_red, d) <~ slift (delta_insert_new NBoundVariable (delta_spawn (e_delta e))) ;;
        let red_syntax := new_leaf_variable v_red in
        ' (v_cond, d) <~ slift (delta_insert_new NBoundVariable d) ;;
        let cond_syntax := new_leaf_variable v_cond in
        ' (_, d) <~ slift (delta_insert_new NBoundVariable d) ;;
        h <~ new_red_cache ;;
        e0 <~ spawn e h d ;;
        let e' := with_inferring e0 (t_concept t) in
        imp_syntax <~ o_to_ast o e' imp ;;
        let rule cond pre red :=
          new_pair cond (new_pair imp_syntax (new_pair pre (new_pair red_op red))) in
        true_id <~ concrete_id e' CTrue ;;
        true_id <~ slift (unwrap true_id "true concept must exist") ;;
        truths <~ equivalence_set e true_id ;;
        o_examples o e' (rule cond_syntax t red_syntax) truths (fun subs =>
          opt_then (aget key_eqb (t_key cond_syntax) (es_gen subs)) (fun cond =>
            sc <~ substitute e cond (es_ex subs) ;;
            ' (nf, why) <~ recursively_reduce e' sc ;;
            opt_then (t_concept nf) (fun c =>
            and_then (is_concrete_type e' CTrue c) (fun _ =>
            opt_then (aget key_eqb (t_key red_syntax) (es_gen subs)) (fun result =>
              result' <~ substitute e result (es_ex subs) ;;
              sret (Some (result',
                          RInference (rule cond t result)
                                     (match why with Some w => w | None => RExplicit end)))
            ))))))).

    (** zia/src/context_search.rs:101-145 *)
    Definition infer_reduction (e : env) (m : mixed) : SM rresult :=
      and_then (concrete_id e CImplication) (fun imp =>
        or_else
          (opt_then (m_find_as_hand m imp HRight) (fun comp =>
             cm <~ read e comp ;;
             find_map (fun '(cond_id, rule_id) =>
               cond <~ o_to_ast o e cond_id ;;
               and_then (o_reduce o e cond) (fun '(cond', reason) =>
               opt_then (t_concept cond') (fun x =>
               and_then (is_concrete_type e CTrue x) (fun x =>
                 xt <~ o_to_ast o e x ;;
                 rt <~ o_to_ast o e rule_id ;;
                 sret (Some (xt, RInference rt reason))))))
               (m_iter_hand_of cfg cm HRight)))
          (cached <~ cached_inference (m_id m) ;;
           match cached with
           | Some rr => sret rr
           | None =>
             t <~ o_to_ast o e (m_id m) ;;
             rr <~ find_examples_of_inferred_reduction e t ;;
             _ <~ insert_inference (m_id m) rr ;;
             sret rr
           end)).

    (** zia/src/context_search.rs:155-172 *)
    Definition reduce_concept (e : env) (c : cid) : SM rresult :=
      m <~ read e c ;;
      or_else
        (if smem cid_eqb c (e_infer e) then sret None else infer_reduction e m)
        (opt_then (m_reduction m) (fun n =>
           v <~ is_leaf_variable_concept e n ;;
           and_then (if v : bool then sret (ml_get (e_mask e) n)
                     else smap Some (o_to_ast o e n))
                    (fun t => sret (Some (t, RExplicit))))).

    (** zia/src/context_search.rs:414-445 *)
    Definition reduce_by_expanded_left_branch (e : env) (ll lr r : tree) : SM rresult :=
      ty <~ concrete_type_of_ast e lr ;;
      if opt_cct_eqb ty (Some CExistsSuchThat) && is_leaf_variable ll then
        true_id <~ concrete_id e CTrue ;;
        true_id <~ slift (unwrap true_id "true concept must exist") ;;
        m <~ read e true_id ;;
        and_then (find_example e r (m_reduces_from cfg m)) (fun subs =>
          t <~ o_to_ast o e true_id ;;
          sret (Some (t, RExistence (es_gen subs) r)))
      else sret None.

    (** zia/src/reduction_reason.rs:394-412 *)
    Definition partial_reason (p : list (key * (tree * reason))) : SM reason :=
      p <~ shuffle cfg p ;; sret (RPartial (partial_flatten p)).

    (** zia/src/context_search.rs:245-274: applying a rule whose pattern is [g] *)
    Definition try_rule (e : env) (h : nat) (t : tree) (g : cid) : SM rresult :=
      vm <~ check_generalisation e t g ;;
      match vm with
      | None | Some [] => sret None
      | Some m =>
        e0 <~ spawn e h (e_delta e) ;;
        opt_then (ml_push (e_mask e0) m) (fun ml =>
          let e' := with_mask e0 ml in
          and_then (reduce_concept e' g) (fun '(t', reason) =>
            t'' <~ substitute e' t' m ;;
            gt <~ o_to_ast o e g ;;
            sret (Some (t'', RRule gt m reason))))
      end.

    (** zia/src/context_search.rs:221-301 *)
    Definition recursively_reduce_pair (e : env) (l r : tree) : SM rresult :=
      lr <~ o_reduce o e l ;;
      rr <~ o_reduce o e r ;;
      let masked t := match t_concept t with Some c => ml_get (e_mask e) c | None => None end in
      let or_self o t := match o with Some t' => t' | None => t end in
      h <~ new_red_cache ;;
      match lr, rr with
      | None, None =>
        t <~ contract_pair e l r ;;
        gs <~ find_generalisations e t ;;
        gs <~ shuffle cfg gs ;;
        find_map (try_rule e h t) gs
      | Some (lt, lwhy), None =>
        t <~ contract_pair e lt (or_self (masked r) r) ;;
        p <~ partial_reason [(t_key l, (lt, lwhy))] ;;
        sret (Some (t, p))
      | None, Some (rt, rwhy) =>
        t <~ contract_pair e (or_self (masked l) l) rt ;;
        p <~ partial_reason [(t_key r, (rt, rwhy))] ;;
        sret (Some (t, p))
      | Some (lt, lwhy), Some (rt, rwhy) =>
        t <~ contract_pair e lt rt ;;
        p <~ partial_reason (aset key_eqb (t_key r) (rt, rwhy) [(t_key l, (lt, lwhy))]) ;;
        sret (Some (t, p))
      end.

    (** zia/src/context_search.rs:199-219 *)
    Definition reduce_pair (e : env) (l r : tree) : SM rresult :=
      or_else (opt_then (t_exp r) (fun '(rl, rr) => reduce_by_expanded_right_branch e l rl rr))
        (or_else (opt_then (t_exp l) (fun '(ll, lr) => reduce_by_expanded_left_branch e ll lr r))
           (recursively_reduce_pair e l r)).

    (** zia/src/context_search.rs:175-196 *)
    Definition reduce (e : env) (t : tree) : SM rresult :=
      cached <~ cached_reduction e t ;;
      match cached with
      | Some rr => sret rr
      | None =>
        concrete <~ match t_concept t with
                    | Some c => concrete_type e c
                    | None => sret None
                    end ;;
        match concrete with
        | Some _ => sret None
        | None =>
          rr <~ or_else (opt_then (t_concept t) (reduce_concept e))
                        (opt_then (t_exp t) (fun '(l, r) => reduce_pair e l r)) ;;
          _ <~ insert_reduction e t rr ;;
          sret rr
        end
      end.

    Definition step : ops :=
      {| o_reduce := reduce;
         o_to_ast := to_ast;
         o_assoc := get_associativity;
         o_expand := expand;
         o_nf := normal_form;
         o_evidence := determine_evidence;
         o_examples := fun R => @find_examples R |}.
  End Step.

  Definition out_of_fuel {A} : SM A := fun _ => OutOfFuel.
  Definition bottom : ops :=
    {| o_reduce := fun _ _ => out_of_fuel;
       o_to_ast := fun _ _ => out_of_fuel;
       o_assoc := fun _ _ => out_of_fuel;
       o_expand := fun _ _ => out_of_fuel;
       o_nf := fun _ _ _ => out_of_fuel;
       o_evidence := fun _ _ _ => out_of_fuel;
       o_examples := fun _ _ _ _ _ => out_of_fuel |}.
  (** The recursion of the source, cut off after [n] nested calls. *)
  Fixpoint search (n : nat) : ops :=
    match n with
    | O => bottom
    | S n => step (search n)
    end.
End Search.
