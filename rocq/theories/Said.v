(** The words of a command are names afterwards. *)
From Verif Require Import Parser Context StoreSpec NameSpec MapFacts AstFacts StoreFacts StoreInv RangeFacts
  History Sim SimRead Steps Keep Links Meaning Names Frames StoreLaws Pending Quiet Declare Grouping Keeping Naming Words.
From Coq Require Import List String Relations Permutation PeanoNat Lia.
Import ListNotations.
Local Open Scope zia_scope.

(** ** The store at the end of a command *)
Lemma execute_found cfg fuel t c z c1 r c' s1 :
  fair cfg -> ready c -> run_command cfg fuel t c = Ok (z, c1) -> execute cfg fuel t c = Ok (r, c') ->
  amounts_to cfg (c_snap c) fuel (c_delta c1) s1 ->
  concepts (c_snap c') = concepts s1 /\ (forall u, aget text_eqb u (string_map (c_snap c')) = aget text_eqb u (string_map s1)).
Proof.
  intros F RD E1 E AM.
  destruct (execute_run cfg fuel t c r c' F RD E) as (z' & c1' & E1' & _ & _ & ST & G & L & A & _).
  rewrite E1 in E1'. injection E1' as <- <-. pose proof (ready_sane c RD) as S. pose proof (ready_prev c RD) as P.
  destruct (amounts_linked cfg (c_snap c) fuel S P _ _ AM) as (LK & SL & _ & _ & _).
  destruct (apply_split _ _ _ _ S L G A) as (s1' & A1' & C1 & C2 & _).
  rewrite (proj2 AM) in A1'. injection A1' as <-. split; [exact C1|]. intros u.
  pose proof A as A'. unfold apply in A'. oinv. subst. rewrite (single_order _ L) in *.
  match goal with H : apply_directs _ _ _ = Ok ?x |- _ => rename H into A1; rename x into s3 end.
  match goal with H : apply_strings _ _ _ = Ok ?x |- _ => rename H into A2; rename x into s2 end.
  match goal with H : delta_iter_string _ _ = Ok ?x |- _ => rename H into A3; rename x into ss end.
  rewrite (proj2 AM) in A1. injection A1 as <-.
  match goal with H : Ok _ = Ok _ |- _ => injection H as <- | H : _ = c_snap c' |- _ => rewrite <- H end. cbn.
  apply (apply_strings_same cfg (c_snap c) false (c_delta c1) s1 ss s2 LK SL); [|exact A2].
  intros v ch I. pose proof (iter_string_in _ _ _ _ _ L A3 I) as J. split; [exact J|].
  apply (aget_in _ text_eqb_spec) in J.
  assert (G' : good_layer (below (size (c_snap c))) (overlay (c_delta c1))).
  { apply G. rewrite L. left. reflexivity. }
  exact (proj2 (proj1 G' _ J)).
Qed.
Lemma found_same s s' w x :
  concepts s' = concepts s -> (forall u, aget text_eqb u (string_map s') = aget text_eqb u (string_map s)) ->
  found_under s w x -> found_under s' w x.
Proof.
  intros C ST. pose proof (same_concepts_at _ _ C) as L. apply found_mono.
  - intros y k. unfold from_at. rewrite L. auto.
  - intros i lr. unfold comp_at. rewrite L. auto.
  - intros n cc (k & K & B). exists k. rewrite L. auto.
  - apply ST.
Qed.

(** ** The variables of a command *)
Lemma variables_new t : logs (fun x => x = DNew NFreeVariable \/ x = DNew NBoundVariable) (create_variable_concepts t).
Proof.
  induction t as [s c k|s c l IHl r IHr fv bv]; cbn [create_variable_concepts].
  - destruct k; try (apply logs_still, still_ret). intros x r x' E. destruct (aget text_eqb s (c_vars x)).
    + injection E as <- <-. split; [reflexivity|]. exists []. rewrite app_nil_r. auto.
    + revert E. match goal with |- ?m x = _ -> _ => set (mm := m) end.
      assert (LG : logs (fun x => x = DNew NFreeVariable \/ x = DNew NBoundVariable) mm).
      { subst mm. apply logs_bind; [apply logs_still, still_need|].
        intros _. apply logs_bind; [apply logs_update; destruct (smem _ _ _); auto|]. intros id c1 r1 c2 E. injection E as _ <-.
        split; [reflexivity|]. exists []. rewrite app_nil_r. auto. }
      apply LG.
  - apply logs_bind; [exact IHl|]. intros l'. apply logs_bind; [exact IHr|]. intros r'. apply logs_still, still_ret.
Qed.

Section Said.
  Variables (cfg : config) (fuel : nat).
  Hypothesis F : fair cfg.
  Hypothesis D : dbg cfg = true.
  Lemma label_built_in c : reachable true c ->
    forall n, bimap_by_right CLabel (concrete_concepts (c_snap c)) = Some n -> built_in (c_snap c) n CLabel.
  Proof.
    intros R n E. destruct (reachable_same_built_in true c R) as [X Y].
    destruct (base_built_in CLabel) as (m & B & M & U). rewrite X, M in E. injection E as <-. apply Y, B.
  Qed.
  Lemma start_sound c : reachable true c -> sound cfg (c_snap c) fuel c.
  Proof.
    intros R. pose proof (reachable_ready _ _ R) as RD. split.
    - split; [reflexivity|]. rewrite (ready_delta c RD), (ready_vars c RD). split; [apply good_delta_default|].
      split; [exact (ready_cache c RD)|]. intros ? [].
    - rewrite (ready_delta c RD). constructor.
  Qed.

  (** A command that is not answered with an error: what it is read as, what it records while it
      is read and while it is evaluated, and what its words lead to before the evaluation. *)
  Lemma command_words command c answer c' u c0 :
    reachable true c -> ast_from_expression cfg fuel command c = Ok (Val u, c0) ->
    execute cfg fuel command c = Ok (answer, c') -> (forall e, answer <> error_text e) ->
    exists t c1 c2 s2, read_tree cfg fuel command c = Ok (Val t, c1) /\ call cfg fuel t c1 = Ok (Val answer, c2) /\
      sound cfg (c_snap c) fuel c1 /\ named cfg (c_snap c) fuel c1 u /\
      sound cfg (c_snap c) fuel c2 /\ steps cfg (below (size (c_snap c))) (c_snap c) fuel (c_delta c1) (c_delta c2) /\
      amounts_to cfg (c_snap c) fuel (c_delta c2) s2 /\
      concepts (c_snap c') = concepts s2 /\ (forall v, aget text_eqb v (string_map (c_snap c')) = aget text_eqb v (string_map s2)).
  Proof.
    intros R E0 E NE. pose proof (reachable_ready _ _ R) as RD. pose proof (start_sound c R) as SD.
    pose proof (ready_sane c RD) as S. pose proof (ready_prev c RD) as P.
    destruct (expression_names cfg (c_snap c) fuel F S P D (label_built_in c R) command c u c0 SD (ready_delta c RD) E0) as [SD0 N0].
    destruct (execute_run cfg fuel command c answer c' F RD E) as (z & c2 & E1 & Es & Ez & ST & G & L & A & _).
    destruct (apply_split _ _ _ _ S L G A) as (s2 & A2 & _).
    assert (AM : amounts_to cfg (c_snap c) fuel (c_delta c2) s2) by (split; assumption).
    destruct (execute_found cfg fuel command c z c2 answer c' s2 F RD E1 E AM) as [X1 X2].
    destruct z as [z|e]; [subst z|destruct (NE e Ez)].
    destruct (run_by_tree _ _ _ _ _ _ E1) as ([t|e] & c1 & Rt & Ec); [|destruct Ec; discriminate].
    pose proof Rt as Rt'. unfold read_tree in Rt'. apply bind_back in Rt'. destruct Rt' as (y & cc & E2 & Rt').
    rewrite E0 in E2. injection E2 as <- <-.
    apply bind_back in Rt'. destruct Rt' as ([t2|e] & c3 & E3 & Rt'); [|destruct Rt'; discriminate].
    apply obind_ok in Rt'. destruct Rt' as ([[y|] c4] & E4 & Rt'); [|discriminate]. injection Rt' as -> ->.
    destruct (read_good cfg fuel command c t c1 F RD Rt) as (C1 & ST1 & Gt).
    pose proof (cok_expression cfg F (below (size (c_snap c))) (fun u => I) (c_snap c) (sane_ids _ S) fuel command c _ c0 (proj1 SD) E0) as (C0 & _ & G0).
    pose proof (cok_expand cfg F (below (size (c_snap c))) (fun u => I) (c_snap c) (sane_ids _ S) fuel u G0 c0 _ c3 C0 E3) as (C3 & S3 & G3).
    pose proof (cok_create cfg (below (size (c_snap c))) (fun u => I) (c_snap c) fuel t2 G3 c3 _ c1 C3 E4) as (_ & S4 & _).
    assert (SD3 : sound cfg (c_snap c) fuel c3) by (split; [exact C3|eapply steps_trans; [apply SD0|exact S3]]).
    assert (SD1 : sound cfg (c_snap c) fuel c1) by (split; assumption).
    pose proof (proj1 (cok_calls cfg F (below (size (c_snap c))) (fun u => I) (c_snap c) (sane_ids _ S) fuel fuel) t Gt c1 _ c2 C1 Ec) as (C2 & S2 & _).
    exists t, c1, c2, s2. split; [exact Rt|]. split; [exact Ec|]. split; [exact SD1|]. split.
    - eapply named_keeps; [|exact N0]. eapply keeps_trans; [apply keeps_unmoved, (unmoving_search (fun c e => o_expand (ops_of cfg fuel c) e u) _ _ _ E3)|].
      apply keeps_making; auto. intros l El id x J. destruct (variables_new t2 c3 _ c1 E4) as (_ & l' & El' & Fl).
      rewrite El' in El. apply app_inv_head in El. subst l'. rewrite Forall_forall in Fl.
      pose proof (Fl _ J) as Fx. cbn in Fx. destruct Fx as [-> | ->]; eexists; (split; [reflexivity|discriminate]).
    - split; [split; [exact C2|exact ST]|]. auto.
  Qed.

  (** The words of a question lead to what they were taken to stand for. *)
  Theorem question_words command c answer c' u c0 :
    reachable true c -> ast_from_expression cfg fuel command c = Ok (Val u, c0) ->
    execute cfg fuel command c = Ok (answer, c') -> answer <> [] -> (forall e, answer <> error_text e) ->
    forall w o, In (w, o) (tree_names u) -> exists x, o = Some x /\ found_under (c_snap c') w (rho (c_snap c) x).
  Proof.
    intros R E0 E NE NR w o J. destruct (command_words command c answer c' u c0 R E0 E NR)
      as (t & c1 & c2 & s2 & Rt & Ec & _ & N1 & _ & _ & AM & X1 & X2).
    destruct (N1 w o J) as (x & -> & H). exists x. split; [reflexivity|]. apply (found_same s2); auto. apply H.
    apply quietly_call in Ec. destruct Ec as [_ [Q|(_ & [Q|(e & Q & _)])]]; [|congruence|discriminate].
    rewrite <- Q. exact AM.
  Qed.
End Said.
