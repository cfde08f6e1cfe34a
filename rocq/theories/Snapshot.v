(** Committed concepts and the reading of concepts through a delta
    (zia/src/context_snap_shot/, zia/src/snap_shot.rs). *)
From Verif Require Export Delta.
From Coq Require Import String List.
Import ListNotations.
Local Open Scope zia_scope.
Set Implicit Arguments.

(** zia/src/context_snap_shot/mod.rs:46-55.  The slot map only ever grows, so it is a
    list indexed by committed identifier. *)
Record snapshot := Snapshot {
  string_map : list (text * nat);
  concepts : list (concept nat);
  concrete_concepts : list (nat * cct);
  prev_unc : list (nat * nat)       (* previously_uncommitted_concepts *)
}.
Definition empty_snapshot : snapshot := Snapshot [] [] [] [].

Definition set_concepts (s : snapshot) (cs : list (concept nat)) : snapshot :=
  Snapshot (string_map s) cs (concrete_concepts s) (prev_unc s).

(** Writing back through the references of [get_disjoint_mut]. *)
Definition put (c : concept nat) (s : snapshot) : snapshot :=
  set_concepts s (upd_nth (c_id c) (fun _ => c) (concepts s)).

(** [SlotMap::get_disjoint_mut]: [None] when a key is invalid or repeated. *)
Fixpoint nodupb (ids : list nat) : bool :=
  match ids with
  | [] => true
  | i :: ids => negb (smem Nat.eqb i ids) && nodupb ids
  end.
Fixpoint get_all (s : snapshot) (ids : list nat) : option (list (concept nat)) :=
  match ids with
  | [] => Some []
  | i :: ids =>
    match nth_error (concepts s) i, get_all s ids with
    | Some c, Some cs => Some (c :: cs)
    | _, _ => None
    end
  end.
Definition get_disjoint (s : snapshot) (ids : list nat) : option (list (concept nat)) :=
  if nodupb ids then get_all s ids else None.

(** zia/src/context_snap_shot/mod.rs:89-104 *)
Definition to_committed (s : snapshot) (id : cid) : outcome nat :=
  match id with
  | Committed n => Ok n
  | Uncommitted n =>
    unwrap (aget Nat.eqb n (prev_unc s)) "Concept ID not committed yet!"
  end.
Fixpoint all_committed (s : snapshot) (ids : list cid) : outcome (list nat) :=
  match ids with
  | [] => Ok []
  | id :: ids => n <- to_committed s id ;; ns <- all_committed s ids ;; Ok (n :: ns)
  end.

(** zia/src/context_snap_shot/mod.rs:235-241 with the [unwrap] of every caller *)
Definition write_concepts (s : snapshot) (ids : list cid) : outcome (list (concept nat)) :=
  ns <- all_committed s ids ;;
  unwrap (get_disjoint s ns) "write_concepts".

Definition note_committed (u n : nat) (s : snapshot) : snapshot :=
  Snapshot (string_map s) (concepts s) (concrete_concepts s)
           (aset Nat.eqb u n (prev_unc s)).

(** zia/src/context_snap_shot/mod.rs:58-66 *)
Definition commit_new (u : nat) (f : nat -> concept nat) (s : snapshot)
  : nat * snapshot :=
  let n := List.length (concepts s) in
  (n, note_committed u n (set_concepts s (concepts s ++ [f n]))).

(** zia/src/context_snap_shot/mod.rs:68-87.  [f] returns the new concept and the
    updated dependencies. *)
Definition commit_with (u : nat) (deps : list cid)
    (f : list (concept nat) -> nat -> outcome (concept nat * list (concept nat)))
    (s : snapshot) : outcome (nat * snapshot) :=
  ns <- all_committed s deps ;;
  let n := List.length (concepts s) in
  let s1 := set_concepts s (concepts s ++ [make_free_variable n]) in
  cs <- unwrap (get_disjoint s1 ns) "commit_new_concept_with_dependent_concepts" ;;
  ' (c, cs') <- f cs n ;;
  let s2 := fold_left (fun s c => put c s) cs' s1 in
  let s3 := set_concepts s2 (upd_nth n (fun _ => c) (concepts s2)) in
  Ok (n, note_committed u n s3).

(** [BiMap::insert] overwrites any pair sharing either side. *)
Definition bimap_insert (n : nat) (cc : cct) (m : list (nat * cct)) : list (nat * cct) :=
  filter (fun '(n', cc') => negb (Nat.eqb n n') && negb (cct_eqb cc cc')) m ++ [(n, cc)].
(** [BiMap::get_by_right] *)
Definition bimap_by_right (cc : cct) (m : list (nat * cct)) : option nat :=
  match find (fun '(_, cc') => cct_eqb cc cc') m with
  | Some (n, _) => Some n
  | None => None
  end.
Definition note_concrete (n : nat) (cc : option cct) (s : snapshot) : snapshot :=
  match cc with
  | None => s
  | Some cc => Snapshot (string_map s) (concepts s)
                        (bimap_insert n cc (concrete_concepts s)) (prev_unc s)
  end.
Definition map_string (s : text) (n : nat) (sn : snapshot) : snapshot :=
  Snapshot (aset text_eqb s n (string_map sn)) (concepts sn) (concrete_concepts sn)
           (prev_unc sn).

(** An [Err] unwrapped by the source becomes a panic. *)
Definition unwrap_res {A} (m : outcome A) (site : string) : outcome A :=
  match m with Err _ => Panic site | m => m end.

Definition bad_arity {A} : outcome A := Panic "unreachable: wrong number of concepts".

Section Apply.
  Variable dbg : bool.

  (** zia/src/context_snap_shot/mod.rs:106-233 *)
  Definition apply_new (u : nat) (nd : new_delta cid) (s : snapshot) : outcome snapshot :=
    match nd with
    | NFreeVariable => Ok (snd (commit_new u (@make_free_variable nat) s))
    | NBoundVariable => Ok (snd (commit_new u (@make_bound_variable nat) s))
    | NString str =>
      let '(n, s) := commit_new u (fun n => plain n (StringPart str)) s in
      Ok (map_string str n s)
    | NComposition lft rgt =>
      omap snd (commit_with u [lft; rgt]
        (fun cs n =>
           match cs with
           | [l; r] =>
             ' (comp, l, r) <- composition_of Nat.eqb dbg n l r ;;
             Ok (plain n (Abstract comp None), [l; r])
           | _ => bad_arity
           end) s)
    | NLefthand comp rgt cc =>
      ' (n, s) <- commit_with u [rgt; comp]
        (fun cs n =>
           match cs with
           | [r; c] =>
             ' (x, r, c) <- unwrap_res (new_lefthand_of Nat.eqb dbg n r c cc)
                                       "lefthand_of unwrap" ;;
             Ok (x, [r; c])
           | _ => bad_arity
           end) s ;;
      Ok (note_concrete n cc s)
    | NDouble comp cc =>
      ' (n, s) <- commit_with u [comp]
        (fun cs n =>
           match cs with
           | [c] => ' (x, c) <- new_double n c cc ;; Ok (x, [c])
           | _ => bad_arity
           end) s ;;
      Ok (note_concrete n cc s)
    | NRighthand comp lft cc =>
      ' (n, s) <- commit_with u [lft; comp]
        (fun cs n =>
           match cs with
           | [l; c] =>
             ' (x, l, c) <- unwrap_res (new_righthand_of Nat.eqb dbg n l c cc)
                                       "righthand_of unwrap" ;;
             Ok (x, [l; c])
           | _ => bad_arity
           end) s ;;
      Ok (note_concrete n cc s)
    | NReducesTo red =>
      omap snd (commit_with u [red]
        (fun cs n =>
           match cs with
           | [r] => let '(x, r) := new_reduction_to Nat.eqb n r in Ok (x, [r])
           | _ => bad_arity
           end) s)
    end.

  (** zia/src/context_snap_shot/mod.rs:449-512 *)
  Definition apply_compose (c : cid) (ch : change (cid * cid)) (s : snapshot)
    : outcome snapshot :=
    match ch with
    | Create (l, r) =>
      cs <- write_concepts s [c; l; r] ;;
      match cs with
      | [x; l; r] =>
        ' (x, l, r) <- unwrap_res (change_composition_create Nat.eqb dbg x l r)
                                  "change_composition unwrap" ;;
        Ok (put r (put l (put x s)))
      | _ => bad_arity
      end
    | Update (bl, br) (al, ar) =>
      cs <- write_concepts s [c; bl; br; al; ar] ;;
      match cs with
      | [x; bl; br; al; ar] =>
        ' (x, bl, br, al, ar) <-
          unwrap_res (change_composition_update Nat.eqb dbg x bl br al ar)
                     "change_composition unwrap" ;;
        Ok (put ar (put al (put br (put bl (put x s)))))
      | _ => bad_arity
      end
    | Remove (l, r) =>
      cs <- write_concepts s [c; l; r] ;;
      match cs with
      | [x; l; r] =>
        ' (x, l, r) <- unwrap_res (change_composition_remove Nat.eqb x l r)
                                  "change_composition unwrap" ;;
        Ok (put r (put l (put x s)))
      | _ => bad_arity
      end
    end.

  (** zia/src/context_snap_shot/mod.rs:519-550 *)
  Definition apply_reduce (u : cid) (ch : change cid) (s : snapshot) : outcome snapshot :=
    match ch with
    | Create r =>
      cs <- write_concepts s [u; r] ;;
      match cs with
      | [x; y] => ' (x, y) <- make_reduce_to Nat.eqb x y ;; Ok (put y (put x s))
      | _ => bad_arity
      end
    | Update b a =>
      cs <- write_concepts s [u; b; a] ;;
      match cs with
      | [x; y; z] =>
        ' (x, y) <- make_no_longer_reduce_to Nat.eqb x y ;;
        ' (x, z) <- make_reduce_to Nat.eqb x z ;;
        Ok (put z (put y (put x s)))
      | _ => bad_arity
      end
    | Remove r =>
      cs <- write_concepts s [u; r] ;;
      match cs with
      | [x; y] => ' (x, y) <- make_no_longer_reduce_to Nat.eqb x y ;; Ok (put y (put x s))
      | _ => bad_arity
      end
    end.

  (** zia/src/context_snap_shot/mod.rs:436-554: one step of the loop.
      [concept_id.try_into().unwrap()] is the panic on a committed new concept. *)
  Definition apply_direct (id : cid) (d : direct) (s : snapshot) : outcome snapshot :=
    match d with
    | DNew nd =>
      match id with
      | Uncommitted u => apply_new u nd s
      | Committed _ => Panic "apply: try_into unwrap"
      end
    | DCompose c ch =>
      _ <- dassert dbg (cid_eqb id c) "apply: composition_id" ;; apply_compose c ch s
    | DReduce u ch =>
      _ <- dassert dbg (cid_eqb id u) "apply: unreduced_id" ;; apply_reduce u ch s
    | DRemove _ => Panic "apply: todo!()"
    end.
  Fixpoint apply_directs (ds : list (cid * direct)) (s : snapshot) : outcome snapshot :=
    match ds with
    | [] => Ok s
    | (id, d) :: ds => s <- apply_direct id d s ;; apply_directs ds s
    end.

  (** zia/src/context_snap_shot/mod.rs:555-575: one string *)
  Definition apply_string (str : text) (ch : change cid) (s : snapshot)
    : outcome snapshot :=
    match ch with
    | Update b a =>
      a <- to_committed s a ;;
      b <- to_committed s b ;;
      _ <- dassert dbg (option_eqb Nat.eqb (aget text_eqb str (string_map s)) (Some b))
                   "apply: string" ;;
      Ok (map_string str a s)
    | Create id => n <- to_committed s id ;; Ok (map_string str n s)
    | Remove b =>
      _ <- (if dbg then
              b <- to_committed s b ;;
              dassert dbg (option_eqb Nat.eqb (aget text_eqb str (string_map s)) (Some b))
                      "apply: string"
            else Ok tt) ;;
      match aget text_eqb str (string_map s) with
      | None => Panic "No string to remove!"
      | Some _ => Ok (Snapshot (adel text_eqb str (string_map s)) (concepts s)
                               (concrete_concepts s) (prev_unc s))
      end
    end.
  Fixpoint apply_strings (ss : list (text * change cid)) (s : snapshot)
    : outcome snapshot :=
    match ss with
    | [] => Ok s
    | (str, ch) :: ss => s <- apply_string str ch s ;; apply_strings ss s
    end.

  (** zia/src/context_snap_shot/mod.rs:427-577 *)
  Definition apply (d : delta) (s : snapshot) : outcome snapshot :=
    _ <- dassert dbg (match prev_unc s with [] => true | _ => false end)
                 "apply: previously_uncommitted_concepts" ;;
    s <- apply_directs (delta_order d) s ;;
    ss <- delta_iter_string dbg d ;;
    s <- apply_strings ss s ;;
    Ok (Snapshot (string_map s) (concepts s) (concrete_concepts s) []).
End Apply.

(** ** Concepts seen through a delta *)

(** zia/src/context_snap_shot/concept.rs:26-39 *)
Record changes := Changes {
  ch_left : list (cid * option cid);
  ch_right : list (cid * option cid);
  ch_from : list (cid * bool)
}.

(** zia/src/context_snap_shot/concept.rs:13-24 *)
Inductive mixed :=
| MPrev (orig : concept nat) (ch : changes) (comp : option (cid * cid)) (red : option cid)
| MUnc (c : concept cid).

(** zia/src/context_snap_shot/concept.rs:41-52 *)
Definition mixed_of_committed (c : concept nat) : mixed :=
  MPrev c (Changes [] [] [])
        (match get_composition c with
         | Some (l, r) => Some (Committed l, Committed r) | None => None end)
        (option_map Committed (get_reduction c)).

(** zia/src/context_snap_shot/concept.rs:71-79 *)
Definition m_id (m : mixed) : cid :=
  match m with MPrev o _ _ _ => Committed (c_id o) | MUnc c => c_id c end.
(** zia/src/context_snap_shot/concept.rs:266-274 *)
Definition m_composition (m : mixed) : option (cid * cid) :=
  match m with MPrev _ _ comp _ => comp | MUnc c => get_composition c end.
(** zia/src/context_snap_shot/concept.rs:256-264 *)
Definition m_reduction (m : mixed) : option cid :=
  match m with MPrev _ _ _ red => red | MUnc c => get_reduction c end.
(** zia/src/context_snap_shot/concept.rs:221-229 *)
Definition m_string (m : mixed) : option text :=
  match m with MPrev o _ _ _ => get_string o | MUnc c => get_string c end.
(** zia/src/context_snap_shot/concept.rs:316-327 *)
Definition m_concrete (m : mixed) : option cct :=
  match m with MPrev o _ _ _ => get_concrete o | MUnc c => get_concrete c end.
(** zia/src/context_snap_shot/concept.rs:158-186 *)
Definition m_free (m : mixed) : bool :=
  match m with MPrev o _ _ _ => free_variable o | MUnc c => free_variable c end.
Definition m_bounded (m : mixed) : bool :=
  match m with MPrev o _ _ _ => bounded_variable o | MUnc c => bounded_variable c end.
Definition m_anonymous (m : mixed) : bool :=
  match m with MPrev o _ _ _ => anonymous_variable o | MUnc c => anonymous_variable c end.

(** zia/src/context_snap_shot/concept.rs:283-314 *)
Definition m_find_as_hand (m : mixed) (other : cid) (h : hand) : option cid :=
  match m with
  | MPrev o ch _ _ =>
    match aget cid_eqb other (match h with HLeft => ch_left ch | HRight => ch_right ch end) with
    | Some v => v
    | None =>
      match other with
      | Committed n => option_map Committed (find_as_hand Nat.eqb o n h)
      | Uncommitted _ => None
      end
    end
  | MUnc c => find_as_hand cid_eqb c other h
  end.

Section Iter.
  Variable cfg : config.
  (** zia/src/context_snap_shot/concept.rs:188-219.  Simplification: the order of a hash
      set rebuilt on every read is taken to depend on the concept and the contents. *)
  Definition m_reduces_from (m : mixed) : list cid :=
    match m with
    | MPrev o ch _ _ =>
      filter (fun u => match aget cid_eqb u (ch_from ch) with
                       | Some false => false | _ => true end)
             (map Committed (ord cfg (OReducesFrom (m_id m)) _ (reduces_from o)))
      ++ map fst (filter snd (ord cfg (OChanges (m_id m)) _ (ch_from ch)))
    | MUnc c => ord cfg (OReducesFrom (m_id m)) _ (reduces_from c)
    end.

  (** zia/src/context_snap_shot/concept.rs:231-254: entries added by the delta are not
      listed, as in the source. *)
  Definition m_iter_hand_of (m : mixed) (h : hand) : list (cid * cid) :=
    match m with
    | MPrev o ch _ _ =>
      flat_map (fun '(k, c) =>
                  match aget cid_eqb (Committed k)
                             (match h with HLeft => ch_left ch | HRight => ch_right ch end) with
                  | None => [(Committed k, Committed c)]
                  | Some None => []
                  | Some (Some c) => [(Committed k, c)]
                  end)
               (ord cfg (OHand (m_id m) h) _ (hand_of o h))
    | MUnc c => ord cfg (OHand (m_id m) h) _ (hand_of c h)
    end.
  (** zia/src/concepts/trait.rs:95-106 *)
  Definition m_iter_composition_ids (m : mixed) (h : hand) : list cid :=
    map snd (m_iter_hand_of m h).
End Iter.

Section Reader.
  Variable cfg : config.
  Local Notation dbg := (dbg cfg).

  (** zia/src/context_snap_shot/concept.rs:97-115 *)
  Definition m_change_reduction (m : mixed) (ch : change cid) : outcome mixed :=
    match m with
    | MPrev o chs comp _ => Ok (MPrev o chs comp (after ch))
    | MUnc c => omap MUnc (change_reduction cid_eqb dbg c ch)
    end.

  (** zia/src/context_snap_shot/concept.rs:117-156 *)
  Definition m_apply_indirect (m : mixed) (d : indirect cid) : outcome mixed :=
    match m with
    | MUnc c => omap MUnc (apply_indirect cid_eqb dbg c d)
    | MPrev o ch comp red =>
      Ok (match d with
          | IComposedOf l r => MPrev o ch (Some (l, r)) red
          | ILefthandOf c r =>
            MPrev o (Changes (aset cid_eqb r (Some c) (ch_left ch)) (ch_right ch) (ch_from ch))
                  comp red
          | INoLongerLefthandOf r =>
            MPrev o (Changes (aset cid_eqb r None (ch_left ch)) (ch_right ch) (ch_from ch))
                  comp red
          | IRighthandOf c l =>
            MPrev o (Changes (ch_left ch) (aset cid_eqb l (Some c) (ch_right ch)) (ch_from ch))
                  comp red
          | INoLongerRighthandOf l =>
            MPrev o (Changes (ch_left ch) (aset cid_eqb l None (ch_right ch)) (ch_from ch))
                  comp red
          | IReducesFrom u =>
            MPrev o (Changes (ch_left ch) (ch_right ch) (aset cid_eqb u true (ch_from ch)))
                  comp red
          | INoLongerReducesFrom u =>
            MPrev o (Changes (ch_left ch) (ch_right ch) (aset cid_eqb u false (ch_from ch)))
                  comp red
          end)
    end.

  Definition leaf_character_eqb (a b : leaf_character) : bool :=
    match a, b with
    | Constant, Constant | FreeVariable, FreeVariable | BoundVariable, BoundVariable => true
    | _, _ => false
    end.

  (** zia/src/context_snap_shot/concept.rs:81-95, concepts/mod.rs:940-965 *)
  Definition m_maybe_composition (m : mixed) : outcome (option (composition cid)) :=
    match m with
    | MUnc c => Ok (maybe_composition c)
    | MPrev o _ comp _ =>
      match maybe_composition o with
      | None => Ok None
      | Some mc =>
        match mc, comp with
        | Comp _ _ _ _, None => Ok (Some (Leaf Constant))
        | Leaf ch, Some (l, r) =>
          _ <- dassert dbg (leaf_character_eqb ch Constant) "apply_composition_change" ;;
          Ok (Some (Comp l r [] []))
        | Comp _ _ _ _, Some (l, r) => Ok (Some (Comp l r [] []))
        | Leaf ch, None => Ok (Some (Leaf ch))
        end
      end
    end.

  (** zia/src/concepts/trait.rs:31-71 *)
  Definition compose_delta (m : mixed) (l r : cid) : outcome direct :=
    mc <- m_maybe_composition m ;;
    match mc with
    | None => Err SettingCompositionOfConcrete
    | Some (Comp bl br _ _) => Ok (DCompose (m_id m) (Update (bl, br) (l, r)))
    | Some (Leaf Constant) => Ok (DCompose (m_id m) (Create (l, r)))
    | Some (Leaf _) => Panic "Not sure what you are trying to do here ..."
    end.

  Variable snap : snapshot.
  Variable d : delta.

  (** zia/src/context_snap_shot/mod.rs:354-360 *)
  Definition get_concept (id : cid) : option mixed :=
    match id with
    | Committed n => option_map mixed_of_committed (nth_error (concepts snap) n)
    | Uncommitted _ => None
    end.

  (** zia/src/snap_shot.rs:54-153: one step of the loop over a concept's deltas.
      Simplification: a [Compose] delta always ends in the [unimplemented!()] of
      context_snap_shot/concept.rs:276-281; reading its hands first (which can only fail
      earlier) is left out. *)
  Definition read_step (id : cid) (m : option mixed) (cd : cdelta) : outcome (option mixed) :=
    match cd with
    | Direct (DNew nd) =>
      _ <- dassert dbg (match m with None => true | _ => false end)
                   "maybe_read_concept: already committed" ;;
      Ok (Some (MUnc (concept_of_new id nd)))
    | Direct (DRemove id') =>
      _ <- dassert dbg (cid_eqb id' id) "maybe_read_concept: id" ;;
      _ <- dassert dbg (match m with None => false | _ => true end)
                   "maybe_read_concept: nothing to remove" ;;
      Ok None
    | Direct (DCompose id' _) =>
      _ <- dassert dbg (cid_eqb id' id) "maybe_read_concept: id" ;;
      Panic "change_composition: not implemented"
    | Direct (DReduce id' ch) =>
      _ <- dassert dbg (cid_eqb id' id) "maybe_read_concept: id" ;;
      m <- unwrap m "concept must already exist" ;;
      omap Some (m_change_reduction m ch)
    | Indirect i =>
      m <- unwrap m "Concept doesn't exist" ;;
      omap Some (m_apply_indirect m i)
    end.
  Fixpoint read_steps (id : cid) (m : option mixed) (cds : list cdelta)
    : outcome (option mixed) :=
    match cds with
    | [] => Ok m
    | cd :: cds => m <- read_step id m cd ;; read_steps id m cds
    end.

  (** zia/src/snap_shot.rs:42-157 *)
  Definition maybe_read_concept (id : cid) : outcome (option mixed) :=
    match delta_concept d id with
    | None => Ok None
    | Some cds => read_steps id (get_concept id) cds
    end.

  (** zia/src/snap_shot.rs:158-170 *)
  Definition read_concept (id : cid) : outcome mixed :=
    m <- maybe_read_concept id ;;
    match m with
    | Some m => Ok m
    | None => unwrap (get_concept id) "No concept with id"
    end.

  (** zia/src/snap_shot.rs:393-402 *)
  Definition maybe_concrete_concept_type (id : cid) : outcome (option cct) :=
    m <- maybe_read_concept id ;;
    Ok (match m with Some m => m_concrete m | None => None end).
  (** zia/src/snap_shot.rs:404-412 *)
  Definition concrete_concept_type (id : cid) : outcome (option cct) :=
    omap m_concrete (read_concept id).

  (** zia/src/context_snap_shot/mod.rs:398-407 *)
  Fixpoint concrete_scan_deltas (id : cid) (acc : option (option cid)) (cds : list cdelta)
    : outcome (option (option cid)) :=
    match cds with
    | [] => Ok acc
    | Direct (DNew _) :: cds => concrete_scan_deltas id (Some (Some id)) cds
    | Direct (DRemove id') :: cds =>
      _ <- dassert dbg (option_eqb (option_eqb cid_eqb) (Some (Some id')) acc)
                   "concrete_concept_id" ;;
      concrete_scan_deltas id (Some None) cds
    | _ :: cds => concrete_scan_deltas id acc cds
    end.
  (** zia/src/context_snap_shot/mod.rs:392-408 *)
  Fixpoint concrete_scan (cc : cct) (acc : option (option cid))
      (entries : list (cid * list cdelta)) : outcome (option (option cid)) :=
    match entries with
    | [] => Ok acc
    | (id, cds) :: entries =>
      t <- maybe_concrete_concept_type id ;;
      acc <- (if opt_cct_eqb t (Some cc) then concrete_scan_deltas id acc cds
              else Ok acc) ;;
      concrete_scan cc acc entries
    end.
  (** zia/src/context_snap_shot/mod.rs:382-415 *)
  Definition concrete_concept_id (cc : cct) : outcome (option cid) :=
    r <- concrete_scan cc None (delta_iter_concepts cfg d) ;;
    Ok (match r with
        | Some id => id
        | None => option_map Committed (bimap_by_right cc (concrete_concepts snap))
        end).

  (** zia/src/context_snap_shot/mod.rs:251-293 *)
  Definition get_string_concept (s : text) : outcome (option cid) :=
    let committed := option_map Committed (aget text_eqb s (string_map snap)) in
    v <- delta_string dbg d s ;;
    match v with
    | None => Ok committed
    | Some (Update b a) =>
      _ <- dassert dbg (option_eqb cid_eqb committed (Some b)) "get_string_concept" ;;
      Ok (Some a)
    | Some (Create c) => Ok (Some c)
    | Some (Remove b) =>
      _ <- dassert dbg (option_eqb cid_eqb committed (Some b)) "get_string_concept" ;;
      Ok None
    end.

  (** zia/src/context_snap_shot/mod.rs:307-325: the work list *)
  Fixpoint labellee_loop (fuel : nat) (candidates : list cid) : outcome (option cid) :=
    match candidates with
    | [] => Ok None
    | c :: rest =>
      match fuel with
      | O => OutOfFuel
      | S fuel =>
        m <- read_concept c ;;
        found <- match m_composition m with
                 | Some (r, x) =>
                   t <- concrete_concept_type r ;;
                   Ok (if opt_cct_eqb t (Some CLabel) then Some x else None)
                 | None => Ok None
                 end ;;
        match found with
        | Some x => Ok (Some x)
        | None => labellee_loop fuel (rest ++ m_reduces_from cfg m)
        end
      end
    end.
  (** zia/src/context_snap_shot/mod.rs:295-326 *)
  Definition get_labellee (fuel : nat) (c : cid) : outcome (option cid) :=
    m <- read_concept c ;; labellee_loop fuel (m_reduces_from cfg m).

  (** zia/src/context_snap_shot/mod.rs:343-352 *)
  Definition concept_from_label (fuel : nat) (s : text) : outcome (option cid) :=
    c <- get_string_concept s ;;
    match c with
    | None => Ok None
    | Some c => get_labellee fuel c
    end.

  (** zia/src/snap_shot.rs:308-318 *)
  Fixpoint get_normal_form (fuel : nat) (c : cid) : outcome (option cid) :=
    match fuel with
    | O => OutOfFuel
    | S fuel =>
      m <- read_concept c ;;
      match m_reduction m with
      | None => Ok None
      | Some n =>
        r <- get_normal_form fuel n ;;
        Ok (Some (match r with Some n' => n' | None => n end))
      end
    end.

  (** zia/src/snap_shot.rs:319-331 *)
  Definition get_concept_of_label (c : cid) : outcome (option cid) :=
    l <- concrete_concept_id CLabel ;;
    match l with
    | None => Ok None
    | Some l => m <- read_concept c ;; Ok (m_find_as_hand m l HRight)
    end.

  (** zia/src/context_snap_shot/mod.rs:362-380 *)
  Fixpoint get_label (fuel : nat) (c : cid) : outcome (option text) :=
    match fuel with
    | O => OutOfFuel
    | S fuel =>
      l <- get_concept_of_label c ;;
      match l with
      | None =>
        m <- read_concept c ;;
        match m_reduction m with
        | None => Ok None
        | Some r => get_label fuel r
        end
      | Some l =>
        n <- get_normal_form fuel l ;;
        match n with
        | None => Ok None
        | Some n => omap m_string (read_concept n)
        end
      end
    end.

  (** zia/src/snap_shot.rs:252-272, 371-384 (mutually recursive in the source) *)
  Fixpoint get_reduction_of_composition (fuel : nat) (c : cid) : outcome cid :=
    match fuel with
    | O => OutOfFuel
    | S fuel =>
      let red_or_comp (c : cid) : outcome mixed :=
        m <- read_concept c ;;
        r <- match m_reduction m with
             | Some r => Ok r
             | None => get_reduction_of_composition fuel c
             end ;;
        read_concept r in
      m <- read_concept c ;;
      match m_composition m with
      | None => Ok c
      | Some (l, r) =>
        ml <- red_or_comp l ;;
        mr <- red_or_comp r ;;
        Ok (match m_find_as_hand ml (m_id mr) HLeft with Some x => x | None => c end)
      end
    end.
  (** zia/src/snap_shot.rs:371-384 *)
  Definition get_reduction_or_reduction_of_composition (fuel : nat) (c : cid)
    : outcome mixed :=
    m <- read_concept c ;;
    r <- match m_reduction m with
         | Some r => Ok r
         | None => get_reduction_of_composition fuel c
         end ;;
    read_concept r.

  (** zia/src/snap_shot.rs:294-307 *)
  Definition righthand_of_without_label_is_empty (c : cid) : outcome bool :=
    l <- concrete_concept_id CLabel ;;
    match l with
    | None => Ok true
    | Some l => m <- read_concept c ;;
                Ok (match m_find_as_hand m l HRight with None => true | Some _ => false end)
    end.

  (** zia/src/snap_shot.rs:273-293 *)
  Definition is_disconnected (c : cid) : outcome bool :=
    m <- read_concept c ;;
    match m_reduction m, m_composition m, m_iter_hand_of cfg m HLeft with
    | None, None, [] =>
      b <- righthand_of_without_label_is_empty c ;;
      Ok (b && match m_reduces_from cfg m with [] => true | _ => false end)
    | _, _, _ => Ok false
    end.

  (** zia/src/snap_shot.rs:332-350 *)
  Fixpoint contains (fuel : nat) (outer inner : cid) : outcome bool :=
    match fuel with
    | O => OutOfFuel
    | S fuel =>
      m <- read_concept outer ;;
      match m_composition m with
      | None => Ok false
      | Some (l, r) =>
        if cid_eqb l inner || cid_eqb r inner then Ok true
        else b <- contains fuel l inner ;;
             if b : bool then Ok true else contains fuel r inner
      end
    end.

  (** zia/src/snap_shot.rs:351-370 *)
  Fixpoint check_reductions (fuel : nat) (outer inner : cid) : outcome unit :=
    match fuel with
    | O => OutOfFuel
    | S fuel =>
      m <- read_concept inner ;;
      match m_reduction m with
      | None => Ok tt
      | Some r =>
        b <- (if cid_eqb r outer then Ok true else contains fuel r outer) ;;
        if b : bool then Err InfiniteComposition else check_reductions fuel outer r
      end
    end.

  (** zia/src/snap_shot.rs:209-224 *)
  Definition bind_concept_to_syntax (t : tree) (c : cid) : outcome tree :=
    ty <- concrete_concept_type c ;;
    if opt_cct_eqb ty (Some CExistsSuchThat) then bind_quantifier dbg t c
    else Ok (bind_nonquantifier t c).

  (** zia/src/snap_shot.rs:191-208 *)
  Definition ast_from_symbol (fuel : nat) (s : text) : outcome tree :=
    c <- concept_from_label fuel s ;;
    match c with
    | None => Ok (from_text s)
    | Some c => bind_concept_to_syntax (from_text s) c
    end.

  (** zia/src/snap_shot.rs:225-244 *)
  Definition new_syntax_from_leaf_concept (m : mixed) : tree :=
    if opt_cct_eqb (m_concrete m) (Some CExistsSuchThat) then new_quantifier_concept (m_id m)
    else if m_anonymous m then new_leaf_variable (m_id m)
    else new_constant_concept (m_id m).
End Reader.
