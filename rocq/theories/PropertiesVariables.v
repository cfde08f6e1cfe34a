(** C35: the variables of commands. *)
From Verif Require Import Start Snapshot Context StoreSpec FrameSpec MapFacts RangeFacts History
  Sample Witness NameWitness Quiet PropertiesFrames PropertiesReductions Variables.
From Coq Require Import String List Bool Relations PeanoNat Lia.
Import ListNotations.
Local Open Scope string_scope.

(** Within one command the leaves of a variable name stand for the same concept, and the leaves of
    different names for different concepts. *)
Theorem C35_one_concept_per_name_partial b cfg fuel command c t c1 s1 s2 o1 o2 :
  fair cfg -> reachable b c -> read_tree cfg fuel command c = Ok (Val t, c1) ->
  has_variable s1 o1 t -> has_variable s2 o2 t -> (s1 = s2 <-> o1 = o2).
Proof. exact (same_command b cfg fuel command c t c1 s1 s2 o1 o2). Qed.
Print Assumptions C35_one_concept_per_name_partial.

(** The variable leaves of two different commands of a history stand for different concepts, whatever
    their names: those of the first command are new when it is read, and those of the second are
    newer than everything that the first one left behind. *)
Theorem C35_fresh_for_every_command_partial b cfg fuel command c answer c' t c1
    cfg2 fuel2 command2 d answer2 d' t2 d1 s1 s2 o1 o2 :
  fair cfg -> dbg cfg = b -> reachable b c -> execute cfg fuel command c = Ok (answer, c') ->
  read_tree cfg fuel command c = Ok (Val t, c1) ->
  further b c' d ->
  fair cfg2 -> dbg cfg2 = b -> execute cfg2 fuel2 command2 d = Ok (answer2, d') ->
  read_tree cfg2 fuel2 command2 d = Ok (Val t2, d1) ->
  has_variable s1 o1 t -> has_variable s2 o2 t2 ->
  exists i1 i2, o1 = Some i1 /\ o2 = Some i2 /\
    (le (length (concepts (c_snap c))) (place (c_snap c) i1) /\
     lt (place (c_snap c) i1) (length (concepts (c_snap c')))) /\
    le (length (concepts (c_snap c'))) (place (c_snap d) i2) /\
    place (c_snap c) i1 <> place (c_snap d) i2.
Proof. exact (other_command b cfg fuel command c answer c' t c1 cfg2 fuel2 command2 d answer2 d' t2 d1 s1 s2 o1 o2). Qed.
Print Assumptions C35_fresh_for_every_command_partial.

(** ** Deciding the parts of the statements *)
Fixpoint variables_of (t : tree) : list (text * option cid) :=
  match t with
  | TLeaf s o LVariable => [(s, o)]
  | TLeaf _ _ _ => []
  | TBranch _ _ l r _ _ => (variables_of l ++ variables_of r)%list
  end.
Lemma variables_of_ok t s o : In (s, o) (variables_of t) -> has_variable s o t.
Proof.
  induction t as [s' i k|s' i l IHl r IHr fv bv]; cbn.
  - destruct k; cbn; try tauto. intros [[= <- <-]|[]]. constructor.
  - intros H. apply in_app_or in H. destruct H; [apply HasLeft|apply HasRight]; auto.
Qed.
Definition read_variables (command : string) (c : ctx) : list (text * option cid) :=
  match read_tree cfg0 fuel0 (txt command) c with Ok (Val t, _) => variables_of t | _ => [] end.
Definition named (name : string) (l : list (text * option cid)) : option cid :=
  match find (fun x => text_eqb (fst x) (txt name)) l with Some (_, o) => o | None => None end.
Lemma named_in name l i : named name l = Some i -> In (txt name, Some i) l.
Proof.
  unfold named. destruct (find _ l) as [[s o]|] eqn:E; [|discriminate]. apply find_some in E.
  destruct E as [E K]. cbn in K. destruct (text_eqb_spec s (txt name)) as [->|]; [|discriminate]. intros ->. exact E.
Qed.
Lemma read_variables_in command c x : In x (read_variables command c) ->
  exists t c1, read_tree cfg0 fuel0 (txt command) c = Ok (Val t, c1) /\ has_variable (fst x) (snd x) t.
Proof.
  unfold read_variables. destruct (read_tree _ _ _ _) as [[[t|e] c1]| | |]; try contradiction. intros H. exists t, c1.
  split; [reflexivity|]. apply variables_of_ok. destruct x. exact H.
Qed.

(** ** The hypotheses are met *)
Definition rule_check (c : ctx) (_ : text) (c' : ctx) : bool :=
  match named "_x_" (read_variables "let ((_x_ foo) bar) -> (_y_ _x_)" c),
        named "_y_" (read_variables "let ((_x_ foo) bar) -> (_y_ _x_)" c),
        named "_x_" (read_variables "let (_x_ goo) -> _x_" c'),
        execute cfg0 fuel0 (txt "let (_x_ goo) -> _x_") c' with
  | Some _, Some _, Some _, Ok _ => true
  | _, _, _, _ => false
  end.
Lemma rule_checked :
  on_session (run_session cfg0 fuel0 (map txt []) context0)
    (then_command "let ((_x_ foo) bar) -> (_y_ _x_)" rule_check) = true.
Proof. vm_compute. reflexivity. Qed.
Example C35_applies :
  exists c answer c' t c1 answer2 d' t2 d1 o1 o2 o3,
    reachable true c /\
    execute cfg0 fuel0 (txt "let ((_x_ foo) bar) -> (_y_ _x_)") c = Ok (answer, c') /\
    read_tree cfg0 fuel0 (txt "let ((_x_ foo) bar) -> (_y_ _x_)") c = Ok (Val t, c1) /\
    further true c' c' /\
    execute cfg0 fuel0 (txt "let (_x_ goo) -> _x_") c' = Ok (answer2, d') /\
    read_tree cfg0 fuel0 (txt "let (_x_ goo) -> _x_") c' = Ok (Val t2, d1) /\
    has_variable (txt "_x_") o1 t /\ has_variable (txt "_y_") o2 t /\ has_variable (txt "_x_") o3 t2.
Proof.
  destruct (session_witness _ _ rule_checked) as (rs & c & _ & R & K).
  apply then_command_ok in K. destruct K as (r & c' & E & K). unfold rule_check in K.
  destruct (named "_x_" (read_variables _ c)) as [o1|] eqn:E1; [|discriminate].
  destruct (named "_y_" (read_variables _ c)) as [o2|] eqn:E2; [|discriminate].
  destruct (named "_x_" (read_variables _ c')) as [o3|] eqn:E3; [|discriminate].
  destruct (execute cfg0 fuel0 (txt "let (_x_ goo) -> _x_") c') as [[r' d']| | |] eqn:E4; try discriminate.
  apply named_in, read_variables_in in E1, E2, E3.
  destruct E1 as (t & c1 & T & E1). destruct E2 as (t' & c1' & T' & E2). destruct E3 as (t2 & d1 & T2 & E3).
  rewrite T in T'. injection T' as <- <-.
  exists c, r, c', t, c1, r', d', t2, d1, (Some o1), (Some o2), (Some o3).
  repeat (split; [first [assumption|apply rt_refl]|]). assumption.
Qed.

(** ** The same is false for the pairs that variables occur in *)
(** [t] is the tree [label_of _x_], which stands for the concept [p]; its right half stands for [v]. *)
Definition name_pair (c : ctx) (command : string) : option (nat * cid) :=
  match read_tree cfg0 fuel0 (txt command) c with
  | Ok (Val (TBranch _ (Some (Committed p)) _ (TLeaf s (Some v) LVariable) _ _), _) =>
    if text_eqb s (txt "_x_") then Some (p, v) else None
  | _ => None
  end.
Lemma name_pair_ok c command p v : name_pair c command = Some (p, v) ->
  exists t c1 l, read_tree cfg0 fuel0 (txt command) c = Ok (Val t, c1) /\
    t_concept t = Some (Committed p) /\ t_exp t = Some (l, TLeaf (txt "_x_") (Some v) LVariable).
Proof.
  unfold name_pair. destruct (read_tree _ _ _ _) as [[[t|e] c1]| | |]; try discriminate.
  destruct t as [|s [[q|q]|] l r fv bv]; try discriminate.
  destruct r as [s' [i|] []|]; try discriminate.
  destruct (text_eqb_spec s' (txt "_x_")) as [->|]; [|discriminate]. intros [= -> ->].
  exists (TBranch s (Some (Committed p)) l (TLeaf (txt "_x_") (Some v) LVariable) fv bv), c1, l. auto.
Qed.
Definition pair_check (c : ctx) (_ : text) (c' : ctx) : bool :=
  match name_pair c "label_of _x_", name_pair c' "label_of _x_" with
  | Some (p, v), Some (q, w) =>
    Nat.eqb p q &&
    match composition_of (c_snap c) p with
    | Some (_, y) => negb (Nat.eqb y (place (c_snap c) v))
    | None => false
    end
  | _, _ => false
  end.
Lemma pair_checked :
  on_session (run_session cfg0 fuel0 (map txt ["let (_x_ foo) -> _x_"]) context0)
    (then_command "label_of _x_" pair_check) = true.
Proof. vm_compute. reflexivity. Qed.

(** The first occurrence of a variable symbol leaves a lasting concept with that name behind.  Later
    commands resolve pairs of symbols through it before they give the leaf its fresh concept.  So
    [label_of _x_] stands for the same concept in two commands, and that concept is composed of a
    concept different from the one that its own leaf [_x_] stands for. *)
Theorem C35_pairs_refuted :
  exists c answer c' t c1 t2 d1 p l v l2 v2 x y,
    reachable true c /\
    execute cfg0 fuel0 (txt "label_of _x_") c = Ok (answer, c') /\
    read_tree cfg0 fuel0 (txt "label_of _x_") c = Ok (Val t, c1) /\
    read_tree cfg0 fuel0 (txt "label_of _x_") c' = Ok (Val t2, d1) /\
    t_concept t = Some (Committed p) /\ t_concept t2 = Some (Committed p) /\
    t_exp t = Some (l, TLeaf (txt "_x_") (Some v) LVariable) /\
    t_exp t2 = Some (l2, TLeaf (txt "_x_") (Some v2) LVariable) /\
    composed (c_snap c) p x y /\ y <> place (c_snap c) v.
Proof.
  destruct (session_witness _ _ pair_checked) as (rs & c & _ & R & K).
  apply then_command_ok in K. destruct K as (r & c' & E & K). unfold pair_check in K.
  destruct (name_pair c _) as [[p v]|] eqn:E1; [|discriminate].
  destruct (name_pair c' _) as [[q w]|] eqn:E2; [|discriminate].
  apply andb_prop in K. destruct K as [K1 K2]. apply Nat.eqb_eq in K1. subst q.
  destruct (composition_of (c_snap c) p) as [[x y]|] eqn:CO; [|discriminate].
  apply composition_of_composed in CO. apply negb_true_iff, Nat.eqb_neq in K2.
  apply name_pair_ok in E1, E2.
  destruct E1 as (t & c1 & l & A1 & A2 & A3). destruct E2 as (t2 & d1 & l2 & B1 & B2 & B3).
  exists c, r, c', t, c1, t2, d1, p, l, v, l2, w, x, y. repeat (split; [assumption|]). assumption.
Qed.
Print Assumptions C35_pairs_refuted.
