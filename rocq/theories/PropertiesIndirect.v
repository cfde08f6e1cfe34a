(** C43 and C25: commands that are reached by evaluating a symbol. *)
From Verif Require Import Start Snapshot Search Context StoreSpec NameSpec FrameSpec MapFacts AstFacts RangeFacts History Sim
  SimRead Steps Quiet Frames CacheLife StoreLaws Meaning OneName CacheRun Indirect Sample Witness PropertiesStore.
From Coq Require Import String List Bool.
Import ListNotations.
Local Open Scope string_scope.

(** The delta of a context in the course of a command knows the built-in true. *)
Lemma true_found b cfg fuel command c z c1 answer c' :
  reachable b c -> fair cfg -> dbg cfg = b ->
  run_command cfg fuel command c = Ok (z, c1) -> execute cfg fuel command c = Ok (answer, c') ->
  forall v, concrete_concept_id cfg (c_snap c) (c_delta c1) CTrue = Ok v -> v <> None.
Proof.
  intros R F D E1 E2 v V ->.
  destruct (C17_strings_and_built_ins_survive_the_commit b cfg fuel command answer c c1 c' z R F E1 E2) as [_ H].
  apply H in V. cbn in V.
  destruct (reachable_built_in b c' (reach_execute b cfg fuel _ _ _ _ F D R E2) CTrue) as (n & _ & _ & _ & _ & _ & X).
  rewrite (concrete_id_plain cfg _ _ F) in V. rewrite (concrete_id_plain cfg0 _ _ fair0) in X. congruence.
Qed.

Section Commands.
  Variables (b : bool) (cfg : config) (fuel : nat) (command : text) (c c1 c' : ctx) (t : tree) (answer : text).
  Hypothesis F : fair cfg.
  Hypothesis D : dbg cfg = b.
  Hypothesis R : reachable b c.
  Hypothesis RT : read_tree cfg fuel command c = Ok (Val t, c1).
  Hypothesis S : t_exp t = None.
  Hypothesis E : execute cfg fuel command c = Ok (answer, c').

  Lemma symbol_run z c2 : run_command cfg fuel command c = Ok (z, c2) ->
    call cfg fuel t c1 = Ok (z, c2) /\ c_delta c2 = c_delta c1.
  Proof.
    intros H. apply run_by_tree in H. destruct H as (x & c3 & H & K). rewrite RT in H. injection H as <- <-.
    split; [exact K|]. apply (symbol_still cfg fuel fuel t S) in K. apply K.
  Qed.
  Lemma symbols_quiet : same_meaning (c_snap c) (c_snap c').
  Proof.
    apply (naming_same_meaning cfg fuel command c answer c' F (reachable_ready b c R) E).
    intros z c2 H. destruct (symbol_run z c2 H) as [_ DD].
    destruct (logs_read_tree _ _ _ _ _ _ RT) as (_ & l & L & N). exists l. split; [|exact N].
    unfold pending in *. rewrite DD. exact L.
  Qed.
  Lemma symbols_refused nf c2 l r :
    c_normal_form cfg fuel t c1 = Ok (Val nf, c2) -> t_key nf <> t_key t -> t_exp nf = Some (l, r) ->
    not_a_string cfg c1 t -> not_a_string cfg c1 nf -> is_command cfg c1 l r ->
    exists e, answer = error_text e.
  Proof.
    intros N K X S1 S2 C.
    destruct (execute_run cfg fuel command c answer c' F (reachable_ready b c R) E) as (z & c3 & H & W & A & _).
    destruct (symbol_run z c3 H) as [H1 H2].
    assert (W1 : c_snap c1 = c_snap c).
    { destruct (ck_calls _ _ _ _ _ _ _ _ _ (remember_run_laws cfg fuel) fuel) as [CK _].
      destruct (CK t c1 z c3 I H1) as (_ & Q & _). congruence. }
    assert (T : true_known cfg c1).
    { intros v V. rewrite W1, <- H2 in V. exact (true_found b cfg fuel command c z c3 answer c' R F D H E v V). }
    destruct (symbol_refused cfg fuel fuel t nf l r c1 c2 z c3 S S1 T N K X S2 C H1) as (e & ->).
    exists e. exact A.
  Qed.
End Commands.

(** C25 (part).  A command that is read as a symbol - one word whose concept is not composed of
    others - changes nothing about any existing concept, whatever the symbol reduces to and whatever
    the answer is.  Missing for the whole of C25: pairs that are answered with nothing or an error. *)
Theorem C25_symbols_change_nothing_partial b cfg fuel command c c1 c' t answer :
  fair cfg -> reachable b c ->
  read_tree cfg fuel command c = Ok (Val t, c1) -> t_exp t = None ->
  execute cfg fuel command c = Ok (answer, c') ->
  same_meaning (c_snap c) (c_snap c').
Proof. exact (fun F R RT S E => symbols_quiet b cfg fuel command c c1 c' t answer F R RT S E). Qed.
Print Assumptions C25_symbols_change_nothing_partial.

(** C43 is never true: a symbol whose normal form is a `let` command (or a `forget` command about a
    concept) is answered with an error, and nothing changes.  For every history, hash order and build
    mode. *)
Theorem C43_indirect_commands_always_fail b cfg fuel command c c1 c2 c' t nf l r answer :
  fair cfg -> dbg cfg = b -> reachable b c ->
  read_tree cfg fuel command c = Ok (Val t, c1) -> t_exp t = None -> not_a_string cfg c1 t ->
  c_normal_form cfg fuel t c1 = Ok (Val nf, c2) -> t_key nf <> t_key t ->
  t_exp nf = Some (l, r) -> not_a_string cfg c1 nf -> is_command cfg c1 l r ->
  execute cfg fuel command c = Ok (answer, c') ->
  (exists e, answer = error_text e) /\ same_meaning (c_snap c) (c_snap c').
Proof.
  intros F D R RT S S1 N K X S2 C E. split.
  - exact (symbols_refused b cfg fuel command c c1 c' t answer F D R RT S E nf c2 l r N K X S1 S2 C).
  - exact (symbols_quiet b cfg fuel command c c1 c' t answer F R RT S E).
Qed.
Print Assumptions C43_indirect_commands_always_fail.

(** The hypotheses are met by the command `a` after `let a -> (let b -> c)`. *)
Definition not_a_string_b (c : ctx) (t : tree) : bool :=
  match t_concept t with
  | Some k => match read_concept cfg0 (c_snap c) (c_delta c) k with
              | Ok m => match m_string m with None => true | Some _ => false end
              | _ => true
              end
  | None => true
  end.
Lemma not_a_string_ok c t : not_a_string_b c t = true -> not_a_string cfg0 c t.
Proof.
  unfold not_a_string_b, not_a_string. intros H k m K E. rewrite K in H. rewrite E in H.
  destruct (m_string m); [discriminate|reflexivity].
Qed.
Definition is_let_b (c : ctx) (l : tree) : bool :=
  match t_concept l with
  | Some k => match concrete_concept_type cfg0 (c_snap c) (c_delta c) k with
              | Ok (Some CLet) => true | _ => false end
  | None => false
  end.
Lemma is_let_ok c l r : is_let_b c l = true -> is_command cfg0 c l r.
Proof.
  unfold is_let_b. destruct (t_concept l) as [k|] eqn:K; [|discriminate]. intros H. exists k. split; [first [exact K|reflexivity]|].
  left. destruct (concrete_concept_type _ _ _ _) as [[[]|]| | |]; try discriminate. reflexivity.
Qed.
Definition indirect_check (read : outcome (zres tree * ctx)) (run : outcome (text * ctx)) : bool :=
  match read, run with
  | Ok (Val t, c1), Ok (a, _) =>
    text_eqb a (error_text MultiplePointersToDelta) &&
    match t_exp t with None => true | Some _ => false end && not_a_string_b c1 t &&
    match c_normal_form cfg0 fuel0 t c1 with
    | Ok (Val nf, _) =>
      negb (key_eqb (t_key nf) (t_key t)) && not_a_string_b c1 nf &&
      match t_exp nf with Some (l, r) => is_let_b c1 l | None => false end
    | _ => false
    end
  | _, _ => false
  end.
Definition indirect_checks (rs : list text) (c : ctx) : bool :=
  indirect_check (read_tree cfg0 fuel0 (txt "a") c) (execute cfg0 fuel0 (txt "a") c).
Lemma indirect_checked :
  on_session (run_session cfg0 fuel0 [txt "let (a (-> (let (b (-> c)))))"] base_context) indirect_checks = true.
Proof. vm_compute. reflexivity. Qed.
Lemma indirect_meaning read run : indirect_check read run = true ->
  exists t c1 c2 c' nf l r, read = Ok (Val t, c1) /\ t_exp t = None /\ not_a_string cfg0 c1 t /\
    c_normal_form cfg0 fuel0 t c1 = Ok (Val nf, c2) /\ t_key nf <> t_key t /\
    t_exp nf = Some (l, r) /\ not_a_string cfg0 c1 nf /\ is_command cfg0 c1 l r /\
    run = Ok (error_text MultiplePointersToDelta, c').
Proof.
  unfold indirect_check. destruct read as [[[t|] c1]| | |]; try discriminate.
  destruct run as [[a c']| | |]; try discriminate. intros H.
  apply andb_prop in H. destruct H as [H H4]. apply andb_prop in H. destruct H as [H H3].
  apply andb_prop in H. destruct H as [H1 H2].
  destruct (text_eqb_spec a (error_text MultiplePointersToDelta)) as [->|]; [|discriminate].
  destruct (t_exp t) eqn:X; [discriminate|].
  destruct (c_normal_form cfg0 fuel0 t c1) as [[[nf|] c2]| | |] eqn:N; try discriminate.
  apply andb_prop in H4. destruct H4 as [H4 H6]. apply andb_prop in H4. destruct H4 as [H4 H5].
  destruct (key_eqb_spec (t_key nf) (t_key t)) as [?|K]; [discriminate|].
  destruct (t_exp nf) as [[l r]|] eqn:Y; [|discriminate].
  exists t, c1, c2, c', nf, l, r. repeat split; try first [assumption|reflexivity|exact X|exact Y|exact N].
  - apply not_a_string_ok, H3.
  - apply not_a_string_ok, H5.
  - apply is_let_ok, H6.
Qed.
Example C43_example : exists c t c1 c2 c' nf l r, reachable true c /\
  read_tree cfg0 fuel0 (txt "a") c = Ok (Val t, c1) /\ t_exp t = None /\ not_a_string cfg0 c1 t /\
  c_normal_form cfg0 fuel0 t c1 = Ok (Val nf, c2) /\ t_key nf <> t_key t /\
  t_exp nf = Some (l, r) /\ not_a_string cfg0 c1 nf /\ is_command cfg0 c1 l r /\
  execute cfg0 fuel0 (txt "a") c = Ok (error_text MultiplePointersToDelta, c') /\
  same_meaning (c_snap c) (c_snap c').
Proof.
  destruct (on_session_ok _ _ indirect_checked) as (rs & c & Er & K).
  pose proof (reachable_session cfg0 fuel0 fair0 _ base_context _ c (reach_base true) Er) as R.
  destruct (indirect_meaning _ _ K) as (t & c1 & c2 & c' & nf & l & r & H1 & H2 & H3 & H4 & H5 & H6 & H7 & H8 & H9).
  exists c, t, c1, c2, c', nf, l, r. repeat (split; [assumption|]).
  exact (proj2 (C43_indirect_commands_always_fail true cfg0 fuel0 _ c c1 c2 c' t nf l r _ fair0 eq_refl R H1 H2 H3 H4 H5 H6 H7 H8 H9)).
Qed.
