(** What `forget` does to the store, in full. *)
From Verif Require Import Lexer LexerSpec Parser Context StoreSpec NameSpec FrameSpec MapFacts AstSpec AstFacts StoreFacts StoreInv RangeFacts
  History Sim SimRead Steps Keep Links Meaning Names OneName Frames StoreLaws Pending Quiet Reductions Declare Define Expressions
  Grouping Keeping Naming Words Said OwnTrees Follow Settled Spoken WideNames OwnKinds Spelled Uttered Added Told.
From Coq Require Import List String Relations Permutation PeanoNat Lia.
Import ListNotations.
Local Open Scope zia_scope.

Lemma spec_remove dbg s s' id x y : self_numbered s -> apply_direct dbg id (DReduce x (Remove y)) s = Ok s' ->
  exists nx ny k red, to_committed s x = Ok nx /\ to_committed s y = Ok ny /\ spec_at s nx = Some (Abstract k red) /\ spec_at s' nx = Some (Abstract k None) /\
    (forall i, i <> nx -> spec_at s' i = spec_at s i) /\
    (forall i, from_at s' i = if Nat.eqb i ny then sdel Nat.eqb nx (from_at s i) else from_at s i).
Proof.
  intros W H. apply apply_direct_effect in H; [|exact W]. destruct H as (_ & us & E & _ & O). inversion E; subst; cbn in O.
  exists nx, ny, k, red. split; [assumption|]. split; [assumption|].
  repeat match goal with H : NoDup _ |- _ => inversion H; clear H; subst end; cbn in *.
  unfold spec_at, from_at. repeat split; intros; rewrite ?O; repeat match goal with |- context [Nat.eqb ?a ?b] => destruct (Nat.eqb_spec a b); subst end; try tauto; try congruence;
    repeat match goal with H : lookup _ _ = Some _ |- _ => rewrite H; clear H end; cbn; congruence.
Qed.

Section Forgot.
  Variables (cfg : config) (fuel : nat).
  Hypothesis F : fair cfg.
  Hypothesis D : dbg cfg = true.
  Variable c : ctx.
  Hypothesis RL : reachable_with true (links_safe true) c.
  Let R := reachable_without _ _ _ RL.
  Local Notation snap := (c_snap c).
  Let RD := reachable_ready _ _ R.
  Let S := ready_sane c RD.
  Let P := ready_prev c RD.
  Let Ed := ready_delta c RD.

  (** Reading a word that stands for an old concept records nothing. *)
  Lemma leaf_quiet kd w o ca v m k cb : ast_from_syntax_leaf cfg fuel kd w o ca = Ok (Val (TLeaf v (Some (Committed m)) k), cb) -> pending cb = pending ca.
  Proof.
    intros E. unfold ast_from_syntax_leaf in E. apply bind_back in E. destruct E as ([id|e] & c1 & E & E'); [|destruct E'; discriminate].
    assert (id = Committed m /\ cb = c1) as [-> ->] by (injection E'; intros; subst; split; reflexivity). destruct o as [x|]; [injection E as _ <-; reflexivity|].
    apply bind_back in E. destruct E as ([[]|e] & c2 & E1 & E); [|destruct E; discriminate].
    assert (c2 = ca) as -> by (unfold need_delta in E1; destruct (pinned ca); congruence).
    apply bind_back in E. destruct E as ([q|e] & c3 & E2 & E); [|destruct E; discriminate]. apply lift_back in E2. destruct E2 as [-> _].
    destruct q as [x|]; [injection E as _ <-; reflexivity|]. exfalso.
    apply bind_back in E. destruct E as ([l|e] & c3 & _ & E); [|destruct E; discriminate].
    unfold new_labelled_concept in E. apply bind_back in E. destruct E as ([[]|e] & c4 & _ & E); [|destruct E; discriminate].
    apply bind_back in E. destruct E as ([str|e] & c5 & _ & E); [|destruct E; discriminate].
    apply bind_back in E. destruct E as ([comp|e] & c6 & _ & E); [|destruct E; discriminate].
    apply update_pending in E. destruct E as (id & Ei & _ & _ & _ & u & ->). discriminate Ei.
  Qed.

  (** Whatever was commanded, if all it recorded is that the old concept [x] does not reduce any more. *)
  Lemma removal_trace tx a x y m c2 c' : execute cfg fuel tx c = Ok (a, c') -> run_command cfg fuel tx c = Ok (Val a, c2) ->
    pending c2 = [(Committed x, DReduce (Committed x) (Remove y))] -> read_concept cfg snap delta_default (Committed x) = Ok m -> m_reduction m = Some y ->
    exists s2, red_at snap x = Some (rho snap y) /\ (forall k, to_committed snap y = Ok k -> k = rho snap y) /\
      apply_direct (dbg cfg) (Committed x) (DReduce (Committed x) (Remove y)) snap = Ok s2 /\
      concepts (c_snap c') = concepts s2 /\ (forall v, aget text_eqb v (string_map (c_snap c')) = aget text_eqb v (string_map s2)).
  Proof.
    intros E E1 PE RM MR.
    destruct (execute_run cfg fuel tx c a c' F RD E) as (z & c3 & E1' & _ & _ & ST & G & L & A & _). rewrite E1 in E1'. injection E1' as <- <-.
    destruct (apply_split _ _ _ _ S L G A) as (s2 & A2 & _).
    assert (AM : amounts_to cfg snap fuel (c_delta c2) s2) by (split; assumption).
    destruct (execute_found cfg fuel tx c _ c2 a c' s2 F RD E1 E AM) as [X1 X2].
    destruct (steps_one cfg fuel c delta_default (c_delta c2) _ _ ST eq_refl PE) as (_ & G' & UP).
    destruct (amounts_step cfg snap fuel delta_default _ _ (c_delta c2) s2 (steps_refl _ _ _ _ _) UP AM) as (s1 & AM1 & AD).
    destruct (amounts_linked cfg snap fuel S P _ _ AM1) as (LK & _).
    assert (s1 = snap) as -> by (destruct AM1 as [_ A1]; cbn in A1; congruence).
    exists s2. destruct (linked_read _ _ _ _ _ _ _ LK RM) as (_ & kk & Lk & SM).
    split.
    { unfold red_at. change (lookup snap x = Some kk) in Lk. rewrite Lk.
      pose proof (sim_spec _ _ _ _ _ SM) as SP. pose proof (sim_red _ _ _ _ _ SM) as SR. rewrite MR in SR.
      cbn in SP. unfold get_reduction. destruct (m_spec m) as [|kd red|]; cbn in SR, SP; try discriminate. subst red.
      destruct (c_spec kk) as [|[] red|]; cbn in SP; try discriminate; injection SP; intros; subst; reflexivity. }
    split; [intros k T; exact (proj1 (com_rho snap snap (d_num (overlay delta_default)) (lk_prev _ _ _ _ _ LK) y k (proj2 G') T))|]. auto.
  Qed.

  Theorem forgot_trace drop w c' :
    let p := Both (Word drop) (Word w) in
    unjoined snap p -> names_built_in snap drop CForget -> (exists n, found_under snap w n) ->
    execute cfg fuel (spelled p) c = Ok ([], c') ->
    exists x y s2 c2, found_under snap w x /\ red_at snap x = Some (rho snap y) /\ (forall k, to_committed snap y = Ok k -> k = rho snap y) /\
      apply_direct (dbg cfg) (Committed x) (DReduce (Committed x) (Remove y)) snap = Ok s2 /\
      concepts (c_snap c') = concepts s2 /\ (forall v, aget text_eqb v (string_map (c_snap c')) = aget text_eqb v (string_map s2)) /\
      run_command cfg fuel (spelled p) c = Ok (Val [], c2) /\ pending c2 = [(Committed x, DReduce (Committed x) (Remove y))] /\ c_cache c2 = empty_cache.
  Proof.
    intros p U NF (n & Kn) E.
    destruct (uttered cfg fuel F D c RL p [] c' U E silence) as (u & c0 & t & c1 & E0 & SA & RT & FA & _).
    pose proof FA as (T1 & tf & tx & T2 & (vf & xf & kf & -> & _ & Sf) & (vx & xx & kx & -> & Kx & Sx)).
    destruct (stands_built_in c _ _ _ NF Sf) as (nf & -> & B1). destruct (proj1 Sx _ Kn) as (x & -> & Fx).
    destruct (command_words cfg fuel F D (spelled p) c [] c' u c0 R E0 E silence)
      as (t' & c1' & c2 & s2 & Rt & Ec & SD1 & N1 & SD2 & ST2 & AM2 & X1 & X2).
    rewrite RT in Rt. injection Rt as <- <-.
    destruct (command_run cfg fuel _ _ _ _ _ _ F RD E RT)
      as (z & c2' & s1' & s2' & EC & EA & ES1 & ES2 & EX & LK1 & EX1 & _ & ST & LK2 & A2 & CC & FR & OT).
    rewrite Ec in EC. injection EC as <- <-.
    destruct (call_forgets cfg fuel t _ _ _ (Committed x) c1 _ c2 T1 T2 eq_refl (built_in_type cfg c1 s1' _ _ _ ES1 LK1 EX1 B1) eq_refl Ec)
      as [(e & [=] & _)|(TR & _)].
    destruct (removing_changes cfg _ c1 _ c2 TR) as (x' & y & m & PE & [= <-] & RM & MR).
    assert (PC : pending c = []) by (unfold pending; rewrite Ed; reflexivity).
    assert (P0 : pending c0 = []).
    { destruct (spelled_reads cfg fuel p c u c0 (unjoined_proper _ _ U) E0) as (ta & ca & tb & Ra & Rb & ->).
      destruct SA as (ul & ur & (_ & Q) & (y1 & k1 & -> & S1) & (y2 & k2 & -> & S2)). assert (NP : t_exp (new_pair ta tb) = Some (ta, tb)) by (unfold new_pair, branch; destruct (pair_vars ta tb); reflexivity). rewrite NP in Q. injection Q as -> ->.
      destruct (stands_built_in c _ _ _ NF S1) as (m1 & -> & _). destruct (proj1 S2 _ Kn) as (m2 & -> & _).
      destruct Ra as (k & nn & _ & <- & Ra). destruct Rb as (k' & nn' & _ & <- & Rb).
      unfold from_concept_kind in Ra, Rb. cbn [ast_from_nested_syntax] in Ra, Rb.
      rewrite (leaf_quiet _ _ _ _ _ _ _ _ Rb), (leaf_quiet _ _ _ _ _ _ _ _ Ra). exact PC. }
    assert (P1 : c_delta c1 = c_delta c0).
    { pose proof RT as Rt'. unfold read_tree in Rt'. apply bind_back in Rt'. destruct Rt' as (q & cc & E2 & Rt').
      rewrite E0 in E2. injection E2 as <- <-.
      apply bind_back in Rt'. destruct Rt' as ([tt2|e] & c3 & E3 & Rt'); [|destruct Rt'; discriminate].
      apply obind_ok in Rt'. destruct Rt' as ([[q|] c4] & E4 & Rt'); [|discriminate]. injection Rt' as -> ->.
      destruct (unmoving_search (fun c e => o_expand (ops_of cfg fuel c) e u) _ _ _ E3) as [_ E3d].
      rewrite (created_still c p _ _ _ _ FA E4). exact E3d. }
    assert (PE' : pending c2 = [(Committed x, DReduce (Committed x) (Remove y))]).
    { rewrite PE. unfold pending in P0 |- *. rewrite P1, P0. reflexivity. }
    pose proof (steps_single _ _ _ _ _ _ (proj2 SD1) eq_refl) as Ly.
    destruct (steps_one cfg fuel c (c_delta c1) (c_delta c2) _ _ ST2 Ly PE) as (_ & G & UP).
    destruct (amounts_step cfg snap fuel (c_delta c1) _ _ (c_delta c2) s2 (proj2 SD1) UP AM2) as (s1 & AM1 & AD).
    destruct (amounts_linked cfg snap fuel S P _ _ AM1) as (LK & _).
    assert (s1 = snap) as ->.
    { destruct AM1 as [_ A1]. unfold pending in P0. rewrite P1, P0 in A1. cbn in A1. congruence. }
    exists x, y, s2, c2. split; [exact Fx|].
    rewrite ES1 in RM. destruct (linked_read _ _ _ _ _ _ _ LK RM) as (_ & kk & L & SM).
    split.
    { unfold red_at. change (lookup snap x = Some kk) in L. rewrite L.
      pose proof (sim_spec _ _ _ _ _ SM) as SP. pose proof (sim_red _ _ _ _ _ SM) as SR. rewrite MR in SR.
      cbn in SP. unfold get_reduction. destruct (m_spec m) as [|kd red|]; cbn in SR, SP; try discriminate. subst red.
      destruct (c_spec kk) as [|[] red|]; cbn in SP; try discriminate; injection SP; intros; subst; reflexivity. }
    split.
    { intros k T. exact (proj1 (com_rho snap snap _ (lk_prev _ _ _ _ _ LK) y k (proj2 G) T)). }
    split; [exact AD|]. split; [exact X1|]. split; [exact X2|]. split; [|split; [exact PE'|]].
    - destruct (execute_run cfg fuel _ c [] c' F RD E) as (z & c3 & E1 & _). destruct (run_by_tree _ _ _ _ _ _ E1) as (q & c4 & RT' & Ec').
      rewrite RT in RT'. injection RT' as <- <-. rewrite Ec in Ec'. injection Ec' as <- <-. exact E1.
    - unfold try_removing_reduction in TR. apply bind_back in TR. destruct TR as ([q|e] & c3 & _ & TR); [|destruct TR; discriminate]. cbn [t_concept] in TR.
      unfold delete_reduction in TR. apply bind_back in TR. destruct TR as ([m'|e] & c7 & _ & TR); [|destruct TR; discriminate].
      destruct (m_reduction m'); [|discriminate]. apply bind_back in TR. destruct TR as ([i|e] & c9 & E9 & TR); [|destruct TR; discriminate].
      injection TR as <-. exact (update_empties _ _ _ _ E9).
  Qed.
End Forgot.
