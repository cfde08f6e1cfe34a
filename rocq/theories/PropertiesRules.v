(** C30: rules apply only to instances of their pattern, as evaluation uses them. *)
From Verif Require Import Start Snapshot Search Context AstSpec StoreSpec FrameSpec MapFacts StoreFacts AstFacts History
  Sample Witness Quiet PropertiesFrames Questions PropertiesQuestions SearchKeeps Rules.
From Coq Require Import String List Bool.
Import ListNotations.
Local Open Scope string_scope.

(** ** C30 *)
(** Matching an expression against a pattern kept in the store, in every state of every search.  A match
    is an assignment that gives one expression to every variable it assigns and under which the pattern
    is the expression. *)
Theorem C30_patterns_match_only_instances cfg snap e t g s m s' :
  check_generalisation cfg snap e t g s = Ok (Some m, s') ->
  functional m /\ fits (open_in cfg snap e) (closed_in cfg snap e) (composed_of cfg snap e) m t g.
Proof. intros E. apply matching in E. tauto. Qed.
Print Assumptions C30_patterns_match_only_instances.

(** Conversely the match is found whenever the expression is an instance, unless a part of it belongs to
    a quantifier; the assignment found is the part of the given one that the pattern needs. *)
Theorem C30_instances_match cfg snap e m t g s :
  functional m -> unbound cfg snap e t ->
  fits (open_in cfg snap e) (closed_in cfg snap e) (composed_of cfg snap e) m t g ->
  exists m', check_generalisation cfg snap e t g s = Ok (Some m', s) /\ within m' m.
Proof. intros F U I. now apply matching_complete. Qed.
Print Assumptions C30_instances_match.

(** Whenever evaluation gives a rule as the reason for a reduction it had not remembered: the expression
    is an instance of the pattern [g] of the rule by the assignment [m] named in the reason, the pattern
    itself reduces to [t1] for the reason stated, and the result is [t1] with [m] put for the variables.
    Missing: an answer taken from the memory of reductions, for which see PropertiesUses.v. *)
Theorem C30_rules_apply_to_instances_partial cfg snap rf n e t s t' pattern m why s' :
  lookup_red (e_reds e) (t_key t) (s_red s) = None -> inferences (s_inf s) ->
  o_reduce (search cfg snap rf (S n)) e t s = Ok (Some (t', RRule pattern m why), s') ->
  exists u g t1,
    t_exp u = t_exp t /\ m <> [] /\ functional m /\
    fits (open_in cfg snap e) (closed_in cfg snap e) (composed_of cfg snap e) m u g /\
    pattern_reduces cfg snap rf n e m g t1 why /\ filled m t1 t'.
Proof.
  intros K I E. destruct (reduce_rule_used cfg snap rf n e t s t' pattern m why s' K I E)
    as (u & g & Eu & Z & F & X & t1 & P & Y). exists u, g, t1. auto 10.
Qed.
Print Assumptions C30_rules_apply_to_instances_partial.

(** The memory of inferences needed above is kept by every search, and is empty at the start. *)
Lemma inferences_at_start : inferences [].
Proof. intros c r []. Qed.
Lemma inferences_kept cfg snap rf n e t s r s' :
  inferences (s_inf s) -> o_reduce (search cfg snap rf n) e t s = Ok (r, s') -> inferences (s_inf s').
Proof. intros H E. eapply (ok_reduce _ (search_keeps cfg snap rf n)); eassumption. Qed.

(** The rule [_x_ twice _x_ -> two _x_] is used on [b twice b], with [b] for the variable; it is not used
    on [b twice c]. *)
Definition reduced (c : ctx) (command : string) (check : tree -> ctx -> rresult -> bool) : bool :=
  match read_tree cfg0 fuel0 (txt command) c with
  | Ok (Val t, c1) =>
    match o_reduce (search cfg0 (c_snap c1) fuel0 fuel0) (env_of c1) t (state_of c1) with
    | Ok (r, _) => check t c1 r
    | _ => false
    end
  | _ => false
  end.
Definition inferences_b (c : ctx) : bool :=
  forallb (fun p => match snd p with None | Some (_, RInference _ _) => true | _ => false end) (s_inf (state_of c)).
Lemma inferences_ok c : inferences_b c = true -> inferences (s_inf (state_of c)).
Proof.
  unfold inferences_b. rewrite forallb_forall. intros H x r I t why ->. apply H in I. cbn [snd] in I.
  destruct why; try discriminate I. eauto.
Qed.
Definition twice_check (_ : list text) (c : ctx) : bool :=
  reduced c "b twice b" (fun t c1 r =>
    negb (red_cached c1 t) && inferences_b c1 &&
    match r with
    | Some (t', RRule _ m RExplicit) =>
      text_eqb (display t') (txt "two b") && forallb (fun p => text_eqb (display (snd p)) (txt "b")) m
    | _ => false
    end) &&
  reduced c "b twice c" (fun _ _ r => match r with None => true | _ => false end).
Fixpoint unbound_b (c : ctx) (t : tree) : bool :=
  negb (smem key_eqb (t_key t) (e_bound (env_of c))) &&
  match t_concept t with
  | Some x => match read_concept cfg0 (c_snap c) (e_delta (env_of c)) x with
              | Ok m => negb (m_bounded m) | _ => false end
  | None => true
  end &&
  match t with TLeaf _ _ _ => true | TBranch _ _ l r _ _ => unbound_b c l && unbound_b c r end.
Lemma unbound_ok c t : unbound_b c t = true -> unbound cfg0 (c_snap c) (env_of c) t.
Proof.
  induction t as [tx x k|tx x l IHl r IHr fv bv]; cbn [unbound_b]; intros H;
    (apply andb_prop in H; destruct H as [H H3]; apply andb_prop in H; destruct H as [H1 H2];
     constructor;
     [intros I; apply (smem_in key_eqb key_eqb_spec) in I; rewrite I in H1; discriminate
     |intros y Y; rewrite Y in H2; destruct (read_concept _ _ _ _) as [m| | |]; try discriminate;
      exists m; split; [reflexivity|now apply negb_true_iff]
     |intros a b X; cbn [t_exp] in X; try discriminate X]).
  injection X as <- <-. apply andb_prop in H3. destruct H3. auto.
Qed.
Definition instance_check (_ : list text) (c : ctx) : bool :=
  reduced c "b twice b" (fun t c1 r =>
    unbound_b c1 t &&
    match r with
    | Some (_, RRule pattern _ _) =>
      match t_concept pattern with
      | Some g =>
        match check_generalisation cfg0 (c_snap c1) (env_of c1) t g (state_of c1) with
        | Ok (Some [_], _) => true
        | _ => false
        end
      | None => false
      end
    | _ => false
    end).
Lemma twice_checked :
  on_session (run_session cfg0 fuel0 (map txt ["let (_x_ twice _x_) -> (two _x_)"]) context0)
    (fun rs c => twice_check rs c && instance_check rs c) = true.
Proof. vm_compute. reflexivity. Qed.
Lemma reduced_ok c command check :
  reduced c command check = true ->
  exists t c1 r s', read_tree cfg0 fuel0 (txt command) c = Ok (Val t, c1) /\
    o_reduce (search cfg0 (c_snap c1) fuel0 fuel0) (env_of c1) t (state_of c1) = Ok (r, s') /\ check t c1 r = true.
Proof.
  unfold reduced. destruct (read_tree _ _ _ _) as [[[t|e] c1]| | |]; try discriminate.
  destruct (o_reduce _ _ _ _) as [[r s']| | |] eqn:E; try discriminate. intros K. exists t, c1, r, s'. auto.
Qed.
Example C30_rules_apply_to_instances_applies :
  exists c t c1 t' pattern m s',
    reachable true c /\ read_tree cfg0 fuel0 (txt "b twice b") c = Ok (Val t, c1) /\
    o_reduce (search cfg0 (c_snap c1) fuel0 fuel0) (env_of c1) t (state_of c1) =
      Ok (Some (t', RRule pattern m RExplicit), s') /\
    display t' = txt "two b" /\ (forall k v, In (k, v) m -> display v = txt "b") /\
    exists u g t1,
      t_exp u = t_exp t /\ m <> [] /\ functional m /\
      fits (open_in cfg0 (c_snap c1) (env_of c1)) (closed_in cfg0 (c_snap c1) (env_of c1))
        (composed_of cfg0 (c_snap c1) (env_of c1)) m u g /\
      pattern_reduces cfg0 (c_snap c1) fuel0 (pred fuel0) (env_of c1) m g t1 RExplicit /\ filled m t1 t'.
Proof.
  destruct (session_witness _ _ twice_checked) as (rs & c & _ & R & K).
  apply andb_prop in K. destruct K as [K _]. unfold twice_check in K. apply andb_prop in K. destruct K as [K _]. apply reduced_ok in K.
  destruct K as (t & c1 & r & s' & E1 & E2 & K). apply andb_prop in K. destruct K as [K K3].
  apply andb_prop in K. destruct K as [K1 K2]. destruct r as [[t' []]|]; try discriminate K3.
  match type of K3 with match ?w with _ => _ end = _ => destruct w; try discriminate K3 end.
  apply andb_prop in K3. destruct K3 as [K3 K4]. rewrite forallb_forall in K4.
  exists c, t, c1, t'. eexists _, _, s'. split; [exact R|]. split; [exact E1|]. split; [exact E2|].
  split; [now destruct (text_eqb_spec (display t') (txt "two b"))|]. split.
  { intros k v I. apply K4 in I. cbn [snd] in I. now destruct (text_eqb_spec (display v) (txt "b")). }
  eapply C30_rules_apply_to_instances_partial; [| |exact E2].
  - apply red_cached_ok. now apply negb_true_iff.
  - now apply inferences_ok.
Qed.

(** [b twice b] is an instance of that pattern; no part of it belongs to a quantifier. *)
Example C30_instances_match_applies :
  exists c t c1 g m,
    reachable true c /\ read_tree cfg0 fuel0 (txt "b twice b") c = Ok (Val t, c1) /\ m <> [] /\
    functional m /\ unbound cfg0 (c_snap c1) (env_of c1) t /\
    fits (open_in cfg0 (c_snap c1) (env_of c1)) (closed_in cfg0 (c_snap c1) (env_of c1))
      (composed_of cfg0 (c_snap c1) (env_of c1)) m t g.
Proof.
  destruct (session_witness _ _ twice_checked) as (rs & c & _ & R & K).
  apply andb_prop in K. destruct K as [_ K]. unfold instance_check in K.
  apply reduced_ok in K. destruct K as (t & c1 & r & s' & E1 & E2 & K). apply andb_prop in K.
  destruct K as [K1 K2]. destruct r as [[t' []]|]; try discriminate K2.
  destruct (t_concept _) as [g|]; [|discriminate].
  destruct (check_generalisation _ _ _ _ _ _) as [[[[|p [|]]|] s]| | |] eqn:E; try discriminate K2.
  apply C30_patterns_match_only_instances in E. destruct E as [F I].
  exists c, t, c1, g, [p]. split; [exact R|]. split; [exact E1|]. split; [discriminate|]. split; [exact F|].
  split; [now apply unbound_ok|exact I].
Qed.
