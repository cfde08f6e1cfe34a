(** The state of a context and the functions changing its delta
    (zia/src/context_updater.rs). *)
From Verif Require Export Search.
From Coq Require Import String List.
Import ListNotations.
Set Implicit Arguments.

(** zia/src/context.rs:36-63 ([Context]).  [pinned] holds while a [ContextSearch] that
    shares the delta is still alive, so that [get_mut] on the delta fails
    (single_threaded.rs:45, multi_threaded.rs:86).  [c_tick] numbers the local hash
    collections created so far. *)
Record ctx := Ctx {
  c_snap : snapshot;
  c_delta : delta;
  c_cache : cache;
  c_vars : list (text * cid);      (* new_variable_concepts_by_label *)
  c_bound : list key;              (* bounded_variable_syntax *)
  pinned : bool;
  c_tick : nat
}.
(** zia/src/context.rs:1241-1273 *)
Definition default_ctx : ctx := Ctx empty_snapshot delta_default empty_cache [] [] false 0.

(** [ZiaResult]: a command that fails keeps the changes it has made so far. *)
Inductive zres (A : Type) := Val (a : A) | Fail (e : zia_error).
Arguments Val {A} a.
Arguments Fail {A} e.

Definition CM (A : Type) := ctx -> outcome (zres A * ctx).
Definition cret {A} (a : A) : CM A := fun c => Ok (Val a, c).
Definition cfail {A} (e : zia_error) : CM A := fun c => Ok (Fail e, c).
Definition cbind {A B} (m : CM A) (f : A -> CM B) : CM B :=
  fun c => obind (m c) (fun '(r, c) =>
             match r with Val a => f a c | Fail e => Ok (Fail e, c) end).
(** A [ZiaResult] as a value. *)
Definition catch {A} (m : CM A) : CM (zres A) :=
  fun c => obind (m c) (fun '(r, c) => Ok (Val r, c)).
Definition rethrow {A} (r : zres A) : CM A :=
  match r with Val a => cret a | Fail e => cfail e end.
Definition clift {A} (m : ctx -> outcome A) : CM A :=
  fun c => match m c with
           | Ok a => Ok (Val a, c)
           | Err e => Ok (Fail e, c)
           | Panic s => Panic s
           | OutOfFuel => OutOfFuel
           end.

Declare Scope ctx_scope.
Delimit Scope ctx_scope with ctx.
Notation "x <= m ;; k" := (cbind m (fun x => k))
  (at level 61, m at next level, right associativity) : ctx_scope.
Notation "' p <= m ;; k" := (cbind m (fun x => match x with p => k end))
  (at level 61, p pattern, m at next level, right associativity) : ctx_scope.
Local Open Scope ctx_scope.

(** zia/src/map_err_variant.rs:10-28, used only with [CannotReduceFurther] *)
Definition on_irreducible {A} (m alt : CM A) : CM A :=
  r <= catch m ;;
  match r with
  | Fail CannotReduceFurther => alt
  | r => rethrow r
  end.

(** zia/src/context.rs:1229-1236: a search on the current state, sharing its cache *)
Definition with_search {A} (f : env -> SM A) : CM A :=
  fun c =>
    match f (new_env (c_delta c) (c_bound c)) (start_state (c_cache c) (c_tick c)) with
    | Ok (a, s) =>
      Ok (Val a, Ctx (c_snap c) (c_delta c) (final_cache s) (c_vars c) (c_bound c)
                     (pinned c) (s_tick s))
    | Err e => Ok (Fail e, c)
    | Panic s => Panic s
    | OutOfFuel => OutOfFuel
    end.

(** zia/src/context.rs:1043-1056 ([updater]) and the other uses of [delta.get_mut()] *)
Definition need_delta : CM unit :=
  fun c => if pinned c then Ok (Fail MultiplePointersToDelta, c) else Ok (Val tt, c).

(** zia/src/context_delta.rs:687-694 and 81-181: every update empties the cache. *)
Definition update (d : direct) : CM cid :=
  fun c =>
    obind (delta_update d (c_delta c)) (fun '(id, d') =>
      Ok (Val id, Ctx (c_snap c) d' empty_cache (c_vars c) (c_bound c) (pinned c) (c_tick c))).

Section Updater.
  Variable cfg : config.
  Variable fuel : nat.

  Definition c_read (id : cid) : CM mixed :=
    clift (fun c => read_concept cfg (c_snap c) (c_delta c) id).
  Definition c_concrete_id (cc : cct) : CM (option cid) :=
    clift (fun c => concrete_concept_id cfg (c_snap c) (c_delta c) cc).
  (** zia/src/context.rs:922-931 *)
  Definition c_concrete_type (id : cid) : CM (option cct) :=
    clift (fun c => concrete_concept_type cfg (c_snap c) (c_delta c) id).
  Definition c_concrete_type_of (t : tree) : CM (option cct) :=
    match t_concept t with Some id => c_concrete_type id | None => cret None end.

  (** zia/src/context_updater.rs:149-185 *)
  Definition new_labelled_concept (s : text) (cc : option cct) (label_id : option cid)
    : CM cid :=
    _ <= clift (fun _ => dassert (dbg cfg)
                  (match label_id with Some _ => true | None => opt_cct_eqb cc (Some CLabel) end)
                  "new_labelled_concept") ;;
    str <= update (DNew (NString s)) ;;
    comp <= update (DNew (NReducesTo str)) ;;
    update (DNew match label_id with
                 | None => NDouble comp cc
                 | Some l => NRighthand comp l cc
                 end).

  (** zia/src/context_updater.rs:210-232 *)
  Definition delete_reduction (c : cid) (syntax : text) : CM unit :=
    m <= c_read c ;;
    match m_reduction m with
    | None => cfail (RedundantReduction syntax)
    | Some r => _ <= update (DReduce c (Remove r)) ;; cret tt
    end.

  (** zia/src/context_updater.rs:261-303 *)
  Definition update_reduction (c : cid) (syntax : text) (r : cid) : CM unit :=
    nf <= clift (fun x => get_normal_form cfg (c_snap x) (c_delta x) fuel r) ;;
    if option_eqb cid_eqb nf (Some c) then cfail CyclicReduction
    else
      m <= c_read c ;;
      if option_eqb cid_eqb (m_reduction m) (Some r) then cfail (RedundantReduction syntax)
      else
        rc <= clift (fun x => get_reduction_of_composition cfg (c_snap x) (c_delta x) fuel c) ;;
        if cid_eqb r rc then cfail (RedundantReduction (show_cid c))
        else
          _ <= update (DReduce c match nf with
                                 | None => Create r
                                 | Some before => Update before r
                                 end) ;;
          cret tt.

  (** zia/src/context_updater.rs:315-336 *)
  Definition find_or_insert_composition (l r : cid) : CM cid :=
    m <= c_read l ;;
    match m_find_as_hand m r HLeft with
    | None => update (DNew (NComposition l r))
    | Some c => cret c
    end.

  (** zia/src/context_updater.rs:234-259 *)
  Definition label (c : cid) (syntax s : text) : CM unit :=
    l <= c_concrete_id CLabel ;;
    match l with
    | None => cfail NoLabelConcept
    | Some l =>
      comp <= find_or_insert_composition l c ;;
      v <= clift (fun x => delta_string (dbg cfg) (c_delta x) s) ;;
      str <= match v with
             | Some (Create id) => cret id
             | _ => update (DNew (NString s))
             end ;;
      update_reduction comp (txt "label_of " ++ syntax) str
    end.

  (** zia/src/context_updater.rs:197-208 *)
  Definition unlabel (c : cid) (syntax : text) : CM unit :=
    l <= clift (fun x => get_concept_of_label cfg (c_snap x) (c_delta x) c) ;;
    l <= clift (fun _ => unwrap l "No label to remove") ;;
    delete_reduction l (txt "label_of " ++ syntax).

  (** zia/src/context_updater.rs:187-195 *)
  Definition relabel (c : cid) (syntax new : text) : CM unit :=
    _ <= unlabel c syntax ;; label c syntax new.

  (** zia/src/context_updater.rs:112-147 *)
  Fixpoint concept_from_ast (t : tree) : CM cid :=
    match t_concept t with
    | Some c => cret c
    | None =>
      l <= clift (fun x => concept_from_label cfg (c_snap x) (c_delta x) fuel (display t)) ;;
      match l with
      | Some c => cret c
      | None =>
        match t with
        | TLeaf _ _ _ =>
          l <= c_concrete_id CLabel ;;
          match l with
          | None => cfail NoLabelConcept
          | Some l => new_labelled_concept (display t) None (Some l)
          end
        | TBranch _ _ l r _ _ =>
          lc <= concept_from_ast l ;;
          rc <= concept_from_ast r ;;
          c <= find_or_insert_composition lc rc ;;
          _ <= (if smem N.eqb c_space (display t) then cret tt
                else label c (display t) (display t)) ;;
          cret c
        end
      end
    end.

  (** zia/src/context_updater.rs:338-367 *)
  Definition insert_composition (c l r : cid) : CM unit :=
    let contains outer :=
      clift (fun x => contains cfg (c_snap x) (c_delta x) fuel outer c) in
    let check inner :=
      clift (fun x => check_reductions cfg (c_snap x) (c_delta x) fuel c inner) in
    b <= (bl <= contains l ;; if bl : bool then cret true else contains r) ;;
    if b : bool then cfail InfiniteComposition
    else
      _ <= check l ;;
      _ <= check r ;;
      m <= c_read c ;;
      d <= clift (fun _ => compose_delta cfg m l r) ;;
      _ <= update d ;;
      cret tt.

  (** zia/src/context_updater.rs:74-84 *)
  Definition redefine (c : cid) (l r : tree) : CM unit :=
    lc <= concept_from_ast l ;;
    rc <= concept_from_ast r ;;
    insert_composition c lc rc.

  (** zia/src/context_updater.rs:46-72 *)
  Definition redefine_composition (c : cid) (l r : tree) (old_l old_r : text) : CM unit :=
    m <= c_read c ;;
    match m_composition m with
    | Some (lc, rc) =>
      _ <= relabel lc old_l (display l) ;; relabel rc old_r (display r)
    | None => redefine c l r
    end.

  (** zia/src/context_updater.rs:86-110 *)
  Definition define_new_syntax (s : text) (l r : tree) : CM unit :=
    t <= match t_concept l, t_concept r with
         | Some lc, Some rc =>
           m <= c_read lc ;;
           match m_find_as_hand m rc HLeft with
           | Some c =>
             clift (fun x => bind_concept_to_syntax cfg (c_snap x) (c_delta x) (from_text s) c)
           | None => cret (from_text s)
           end
         | _, _ => cret (from_text s)
         end ;;
    _ <= concept_from_ast (bind_pair t l r) ;;
    cret tt.

  (** zia/src/context_updater.rs:369-388 *)
  Definition blindly_remove_concept (c : cid) : CM unit := _ <= update (DRemove c) ;; cret tt.
  Definition remove_string (s : text) : CM unit :=
    v <= clift (fun x => delta_string (dbg cfg) (c_delta x) s) ;;
    id <= clift (fun _ => unwrap (match v with Some v => after v | None => None end)
                                 "string already removed or doesn't exist") ;;
    blindly_remove_concept id.
  (** zia/src/context_updater.rs:402-410 *)
  Definition remove_concept (c : cid) : CM unit :=
    m <= c_read c ;;
    _ <= match m_string m with Some s => remove_string s | None => cret tt end ;;
    blindly_remove_concept c.
  (** zia/src/context_updater.rs:390-400 *)
  Definition try_delete_concept (c : cid) (syntax : text) : CM unit :=
    b <= clift (fun x => is_disconnected cfg (c_snap x) (c_delta x) c) ;;
    if b : bool then _ <= unlabel c syntax ;; remove_concept c else cret tt.
End Updater.
