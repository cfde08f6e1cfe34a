(** Contexts used to illustrate the theorems about the store. *)
From Verif Require Import Start Snapshot StoreSpec MapFacts AstFacts RangeFacts History Sim Links.
From Coq Require Import String List Bool.
Import ListNotations.
Local Open Scope string_scope.

Lemma fair0 : fair cfg0.
Proof. intros o A l. apply Permutation.Permutation_refl. Qed.

Lemma context0_reachable : reachable true context0.
Proof. exact (reachable_new cfg0 fuel0 fair0 context0 context0_eq). Qed.

(** A session after [Context::new]. *)
Definition sample_commands : list text := map txt ["let a := b c"; "let b -> d"].
Definition store_after (r : outcome (list text * ctx)) : snapshot :=
  match r with Ok (_, c) => c_snap c | _ => empty_snapshot end.
Definition sample_store : snapshot :=
  Eval vm_compute in store_after (run_session cfg0 fuel0 sample_commands context0).
Lemma sample_check :
  match run_session cfg0 fuel0 sample_commands context0 with
  | Ok (rs, c) => rs = [[]; []] /\ c_snap c = sample_store
  | _ => False
  end.
Proof. vm_compute. split; reflexivity. Qed.
Lemma sample_exists :
  exists c, run_session cfg0 fuel0 sample_commands context0 = Ok ([[]; []], c) /\
            reachable true c /\ c_snap c = sample_store.
Proof.
  pose proof sample_check as K.
  destruct (run_session cfg0 fuel0 sample_commands context0) as [[rs c]| | |] eqn:E; try contradiction.
  destruct K as [-> K]. exists c. split; [reflexivity|]. split; [|exact K].
  exact (reachable_session cfg0 fuel0 fair0 sample_commands context0 _ c context0_reachable E).
Qed.

(** A short session before the standard rules are set up, all of whose changes keep the
    composition links. *)
Definition small_commands : list text := map txt ["let (a (:= (b c)))"; "let ((b d) (-> c))"].
Definition small : ctx :=
  Eval vm_compute in match run_safely cfg0 fuel0 small_commands base_context with
                     | Some c => c | _ => default_ctx end.
Lemma small_eq : run_safely cfg0 fuel0 small_commands base_context = Some small.
Proof. vm_compute. reflexivity. Qed.
Lemma small_reachable : reachable_with true (links_safe true) small.
Proof.
  exact (run_safely_reachable cfg0 fuel0 small_commands fair0 base_context small
           (reach_with_base _ _) small_eq).
Qed.

(** A command whose pending changes can be read. *)
Definition pending_command : text := txt "let ((b d) (-> c))".
Definition pending_checks (r : outcome (zres text * ctx)) (r' : outcome (text * ctx)) : bool :=
  match r, r' with
  | Ok (Val _, c1), Ok (_, _) =>
    forallb (fun p => links_safe_b true (snd p)) (d_order (overlay (c_delta c1))) &&
    match get_label cfg0 (c_snap base_context) (c_delta c1) 10 (Uncommitted 2),
          read_concept cfg0 (c_snap base_context) (c_delta c1) (Uncommitted 9) with
    | Ok (Some t), Ok m =>
      text_eqb t (txt "b") &&
      option_eqb (fun '(a, b) '(a', b') => cid_eqb a a' && cid_eqb b b') (m_composition m)
        (Some (Uncommitted 2, Uncommitted 5))
    | _, _ => false
    end
  | _, _ => false
  end.
Lemma pending_checked :
  pending_checks (run_command cfg0 fuel0 pending_command base_context)
                 (execute cfg0 fuel0 pending_command base_context) = true.
Proof. vm_compute. reflexivity. Qed.

Lemma pending_meaning x y :
  pending_checks x y = true ->
  exists z c1 r c', x = Ok (z, c1) /\ y = Ok (r, c') /\
    (forall id x, In (id, x) (d_order (overlay (c_delta c1))) -> Sim.keeps_hands x) /\
    get_label cfg0 (c_snap base_context) (c_delta c1) 10 (Uncommitted 2) = Ok (Some (txt "b")) /\
    exists m, read_concept cfg0 (c_snap base_context) (c_delta c1) (Uncommitted 9) = Ok m /\
      m_composition m = Some (Uncommitted 2, Uncommitted 5).
Proof.
  intros K. unfold pending_checks in K.
  destruct x as [[[v|] c1]| | |]; try discriminate K.
  destruct y as [[r c']| | |]; try discriminate K.
  exists (Val v), c1, r, c'. split; [reflexivity|]. split; [reflexivity|].
  apply andb_prop in K. destruct K as [K1 K2]. split.
  - intros id x I. rewrite forallb_forall in K1. specialize (K1 _ I). cbn in K1.
    destruct x as [|? []| |]; cbn in K1 |- *; try discriminate K1; exact Logic.I.
  - destruct (get_label cfg0 _ _ _ _) as [[t|]| | |]; try discriminate K2.
    destruct (read_concept cfg0 _ _ _) as [m| | |]; try discriminate K2.
    apply andb_prop in K2. destruct K2 as [K2 K3].
    destruct (text_eqb_spec t (txt "b")) as [->|]; [|discriminate]. split; [reflexivity|].
    exists m. split; [reflexivity|]. destruct (m_composition m) as [[p q]|]; [|discriminate].
    cbn [option_eqb] in K3. apply andb_prop in K3. destruct K3 as [K3 K4].
    destruct (cid_eqb_spec p (Uncommitted 2)) as [E|]; [|discriminate].
    destruct (cid_eqb_spec q (Uncommitted 5)) as [E'|]; [|discriminate]. congruence.
Qed.
Lemma pending_exists :
  exists z c1 r c', run_command cfg0 fuel0 pending_command base_context = Ok (z, c1) /\
    execute cfg0 fuel0 pending_command base_context = Ok (r, c') /\
    (forall id x, In (id, x) (d_order (overlay (c_delta c1))) -> Sim.keeps_hands x) /\
    get_label cfg0 (c_snap base_context) (c_delta c1) 10 (Uncommitted 2) = Ok (Some (txt "b")) /\
    exists m, read_concept cfg0 (c_snap base_context) (c_delta c1) (Uncommitted 9) = Ok m /\
      m_composition m = Some (Uncommitted 2, Uncommitted 5).
Proof. exact (pending_meaning _ _ pending_checked). Qed.
