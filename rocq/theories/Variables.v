(** Variables of commands. *)
From Verif Require Import Snapshot Context StoreSpec FrameSpec MapFacts AstFacts StoreFacts RangeFacts History Sim SimRead
  Steps Quiet Frames Reductions Declare.
From Coq Require Import String List PeanoNat Lia Relations.
Import ListNotations.
Local Open Scope zia_scope.

(** ** Specification *)
(** [t] has a variable leaf [s] that stands for the concept [o]. *)
Inductive has_variable (s : text) (o : option cid) : tree -> Prop :=
| HasLeaf : has_variable s o (TLeaf s o LVariable)
| HasLeft x c l r fv bv : has_variable s o l -> has_variable s o (TBranch x c l r fv bv)
| HasRight x c l r fv bv : has_variable s o r -> has_variable s o (TBranch x c l r fv bv).
(** [c'] is the context after any number of further commands. *)
Definition further (b : bool) : ctx -> ctx -> Prop :=
  clos_refl_trans ctx (fun c c' => exists cfg fuel command answer,
    fair cfg /\ dbg cfg = b /\ execute cfg fuel command c = Ok (answer, c')).

(** ** Reading a command does not touch the table of variables *)
Definition vkeep {A} (m : CM A) : Prop := forall c r c', m c = Ok (r, c') -> c_vars c' = c_vars c.
Lemma v_ret {A} (a : A) : vkeep (cret a). Proof. intros c r c' [= <- <-]. reflexivity. Qed.
Lemma v_fail {A} e : vkeep (cfail e : CM A). Proof. intros c r c' [= <- <-]. reflexivity. Qed.
Lemma v_lift {A} (f : ctx -> outcome A) : vkeep (clift f).
Proof. intros c r c' E. apply lift_back in E. destruct E as [-> _]. reflexivity. Qed.
Lemma v_search {A} (f : ctx -> env -> SM A) : vkeep (fun c => with_search (f c) c).
Proof. intros c r c' E. unfold with_search in E. destruct (f c _ _) as [[a s]| | |]; try discriminate; injection E as <- <-; reflexivity. Qed.
Lemma v_search_plain {A} (f : env -> SM A) : vkeep (with_search f).
Proof. apply (v_search (fun _ => f)). Qed.
Lemma v_bind {A B} (m : CM A) (f : A -> CM B) : vkeep m -> (forall a, vkeep (f a)) -> vkeep (cbind m f).
Proof.
  intros H K c r c' E. apply bind_back in E. destruct E as (x & c1 & E1 & E2). apply H in E1. destruct x as [a|e].
  - apply K in E2. congruence.
  - destruct E2 as [_ ->]. exact E1.
Qed.
Lemma v_need : vkeep need_delta.
Proof. intros c r c' E. unfold need_delta in E. destruct (pinned c); injection E as <- <-; reflexivity. Qed.
Lemma v_fuel {A} : vkeep (fun _ => OutOfFuel : outcome (zres A * ctx)).
Proof. intros c r c'. discriminate. Qed.
Lemma v_update d : vkeep (update d).
Proof. intros c r c' E. unfold update in E. apply obind_ok in E. destruct E as ([id d'] & _ & E). injection E as <- <-. reflexivity. Qed.

Section Reading.
  Variable cfg : config.
  Variable fuel : nat.
  Lemma v_type_of t : vkeep (c_concrete_type_of cfg t).
  Proof. unfold c_concrete_type_of. destruct (t_concept t); [apply v_lift|apply v_ret]. Qed.
  Lemma v_combine l r : vkeep (c_combine cfg fuel l r).
  Proof. exact (v_search (fun c e => combine_ast cfg (c_snap c) (ops_of cfg fuel c) e l r)). Qed.
  Lemma v_assoc t : vkeep (c_assoc cfg fuel t).
  Proof. exact (v_search (fun c e => o_assoc (ops_of cfg fuel c) e t)). Qed.
  Lemma v_expand t : vkeep (c_expand cfg fuel t).
  Proof. exact (v_search (fun c e => o_expand (ops_of cfg fuel c) e t)). Qed.
  Lemma v_new_labelled s l : vkeep (new_labelled_concept cfg s None l).
  Proof.
    unfold new_labelled_concept. apply v_bind; [apply v_lift|]. intros _.
    apply v_bind; [apply v_update|]. intros str. apply v_bind; [apply v_update|]. intros x. apply v_update.
  Qed.

  Ltac lg1 :=
    match goal with
    | |- vkeep (cret _) => apply v_ret
    | |- vkeep (cfail _) => apply v_fail
    | |- vkeep (clift _) => apply v_lift
    | |- vkeep (c_read _ _) => apply v_lift
    | |- vkeep (c_concrete_id _ _) => apply v_lift
    | |- vkeep (c_concrete_type_of _ _) => apply v_type_of
    | |- vkeep (c_shuffle _ _) => apply v_search_plain
    | |- vkeep (c_combine _ _ _ _) => apply v_combine
    | |- vkeep (c_assoc _ _ _) => apply v_assoc
    | |- vkeep need_delta => apply v_need
    | |- vkeep (fun _ => OutOfFuel) => apply v_fuel
    | |- vkeep (new_labelled_concept _ _ None _) => apply v_new_labelled
    | |- vkeep (cbind _ _) => apply v_bind; [|intros ?]
    | H : forall _, vkeep _ |- vkeep _ => apply H
    | H : forall _ _, vkeep _ |- vkeep _ => apply H
    | H : forall _ _ _, vkeep _ |- vkeep _ => apply H
    | |- vkeep (match ?x with _ => _ end) => destruct x
    | |- vkeep (let _ := _ in _) => cbv zeta
    end.
  Ltac lg := repeat lg1; auto.

  Lemma v_leaf k s c : vkeep (ast_from_syntax_leaf cfg fuel k s c).
  Proof. unfold ast_from_syntax_leaf. lg. Qed.
  Lemma v_pair l r : vkeep (ast_from_pair cfg fuel l r).
  Proof.
    unfold ast_from_pair. lg. intros x y x' E. injection E as <- <-. reflexivity.
  Qed.
  Lemma v_related ids es : forall acc, vkeep (related_concepts cfg ids es acc).
  Proof. induction es as [|[r comp] es IH]; intros acc; cbn [related_concepts]; lg. Qed.
  Lemma v_precedes a b : vkeep (precedes cfg fuel a b).
  Proof.
    unfold precedes. apply v_bind; [|intros t; apply v_type_of].
    exact (v_search (fun c e =>
            let o := ops_of cfg fuel c in
            sbind (concrete_ast cfg (c_snap c) o e CPrecedes) (fun p =>
            sbind (slift (unwrap p "precedes: unwrap")) (fun p =>
            sbind (o_to_ast o e a) (fun ta =>
            sbind (o_to_ast o e b) (fun tb =>
            sbind (combine_ast cfg (c_snap c) o e p tb) (fun pb =>
            sbind (combine_ast cfg (c_snap c) o e ta pb) (fun apb =>
            smap fst (o_nf o e apb None))))))))).
  Qed.
  Lemma v_place c all low : vkeep (place_concept cfg fuel c all low).
  Proof.
    induction low as [|l low IH]; cbn [place_concept]; lg; apply v_precedes.
  Qed.
  Lemma v_lowest cs : forall low, vkeep (lowest_concepts cfg fuel cs low).
  Proof. induction cs as [|c cs IH]; intros low; cbn [lowest_concepts]; lg; apply v_place. Qed.
  Lemma v_positions ts cs : vkeep (positions_of cfg ts cs).
  Proof. induction cs as [|c cs IH]; cbn [positions_of]; lg. Qed.
  Lemma v_lowest_info ts : vkeep (lowest_precedence_info cfg fuel ts).
  Proof.
    unfold lowest_precedence_info. lg; first [apply v_related|apply v_lowest|apply v_positions].
  Qed.
  Lemma v_common ts : forall a, vkeep (common_associativity cfg fuel a ts).
  Proof. induction ts as [|t ts IH]; intros a; cbn [common_associativity]; lg. Qed.
  Section Lists.
    Variable parse : list tree -> CM tree.
    Hypothesis H : forall ts, vkeep (parse ts).
    Lemma v_handler ts st lp a : vkeep (try_fold_handler cfg fuel parse ts st lp a).
    Proof. unfold try_fold_handler. lg. Qed.
    Lemma v_fold_right ts lps : forall mn tl, vkeep (fold_right_assoc cfg fuel parse ts mn tl lps).
    Proof. induction lps as [|lp lps IH]; intros mn tl; cbn [fold_right_assoc]; lg. apply v_handler. Qed.
    Lemma v_fold_left ts lps : forall st, vkeep (fold_left_assoc cfg fuel parse ts st lps).
    Proof. induction lps as [|lp lps IH]; intros st; cbn [fold_left_assoc]; lg. apply v_handler. Qed.
  End Lists.
  Lemma v_heap l : vkeep (heap_iter cfg l).
  Proof. unfold heap_iter. lg. Qed.
  Lemma v_list n : forall ts, vkeep (ast_from_syntax_list cfg fuel n ts).
  Proof.
    induction n as [|n IH]; intros ts; cbn [ast_from_syntax_list]; lg;
      first [apply v_lowest_info|apply v_common|apply v_heap|apply v_fold_left|apply v_fold_right]; auto.
  Qed.
  Lemma v_parse_list ts : vkeep (parse_list cfg fuel ts).
  Proof. apply v_list. Qed.
  Fixpoint v_nested (n : nested) : vkeep (ast_from_nested_syntax cfg fuel n).
  Proof.
    destruct n as [k s c|ns sh]; cbn [ast_from_nested_syntax]; [apply v_leaf|].
    apply v_bind.
    - clear sh. induction ns as [|x ns IH]; [lg1|]. apply v_bind; [apply v_nested|intros t].
      apply v_bind; [exact IH|intros ts]. lg1.
    - clear v_nested. intros ts. lg; first [apply v_pair|apply v_parse_list].
  Defined.
  Lemma v_syntax_list n : vkeep (syntax_list_for_nested_syntax cfg fuel n).
  Proof.
    destruct n as [k s c|ns sh]; cbn [syntax_list_for_nested_syntax]; [lg; apply v_leaf|].
    induction ns as [|x xs IH]; [lg1|]. apply v_bind; [apply v_nested|intros t].
    apply v_bind; [exact IH|intros ts]. lg1.
  Qed.
  Lemma v_expression s : vkeep (ast_from_expression cfg fuel s).
  Proof.
    unfold ast_from_expression, c_lex, c_nest. lg; [apply v_syntax_list|apply v_parse_list].
  Qed.
End Reading.

(** ** The table of variables *)
(** Every variable of the table was created by this command; different names have different
    concepts. *)
Definition table_ok (c : ctx) : Prop :=
  (forall s id, aget text_eqb s (c_vars c) = Some id ->
     exists u, id = Uncommitted u /\ u < d_num (overlay (c_delta c))) /\
  (forall s s' id, aget text_eqb s (c_vars c) = Some id -> aget text_eqb s' (c_vars c) = Some id -> s = s').
Definition table_grows (c c' : ctx) : Prop :=
  forall s id, aget text_eqb s (c_vars c) = Some id -> aget text_eqb s (c_vars c') = Some id.
Lemma create_table t : forall c r c',
  layers (c_delta c) = [overlay (c_delta c)] -> table_ok c ->
  create_variable_concepts t c = Ok (r, c') ->
  layers (c_delta c') = [overlay (c_delta c')] /\ table_ok c' /\ table_grows c c' /\
  match r with
  | Val t' => forall s o, has_variable s o t' -> exists id, o = Some id /\ aget text_eqb s (c_vars c') = Some id
  | Fail _ => True
  end.
Proof.
  induction t as [s i k|s i l IHl r IHr fv bv]; intros c x c' L T E; cbn [create_variable_concepts] in E.
  - destruct k.
    2,3: injection E as <- <-; split; [exact L|]; split; [exact T|]; split; [intros ? ? H; exact H|];
      intros s' o H; inversion H.
    destruct (aget text_eqb s (c_vars c)) as [id|] eqn:G.
    { injection E as <- <-. split; [exact L|]. split; [exact T|]. split; [intros ? ? H; exact H|].
      intros s' o H. inversion H; subst. eauto. }
    apply bind_back in E. destruct E as (u & c1 & E1 & E).
    unfold need_delta in E1. destruct (pinned c); injection E1 as <- <-.
    { destruct E as [-> ->]. split; [exact L|]. split; [exact T|]. split; [intros ? ? H; exact H|exact I]. }
    apply bind_back in E. destruct E as (w & c1 & E1 & E).
    unfold update in E1. apply obind_ok in E1. destruct E1 as ([id d'] & U & E1). injection E1 as <- <-.
    injection E as <- <-. cbn [c_vars c_delta].
    destruct (update_order _ _ _ _ L U) as [_ L'].
    assert (NU : id = Uncommitted (d_num (overlay (c_delta c))) /\ d_num (overlay d') = S (d_num (overlay (c_delta c)))).
    { destruct (c_delta c) as [o inner]. cbn [delta_update] in U. apply obind_ok in U.
      destruct U as ([id1 o1] & U & E). injection E as <- <-. apply update_layer_spec in U.
      destruct U as (U1 & U2 & _). cbn. destruct (smem _ _ _); cbn in U1, U2; auto. }
    destruct NU as [-> NU]. destruct T as [T1 T2].
    split; [exact L'|]. split; [split|split].
    + intros s' id. cbn. rewrite (aget_aset _ text_eqb_spec).
      destruct (text_eqb_spec s' s) as [->|N].
      * intros [= <-]. eexists. split; [reflexivity|]. lia.
      * intros H. destruct (T1 _ _ H) as (v & -> & V). eexists. split; [reflexivity|]. lia.
    + intros s1 s2 id. cbn. rewrite !(aget_aset _ text_eqb_spec).
      destruct (text_eqb_spec s1 s) as [->|N1], (text_eqb_spec s2 s) as [->|N2]; auto.
      * intros [= <-] H. destruct (T1 _ _ H) as (v & [= <-] & V). lia.
      * intros H [= <-]. destruct (T1 _ _ H) as (v & [= <-] & V). lia.
      * apply T2.
    + intros s' id H. cbn. rewrite (aget_aset _ text_eqb_spec).
      destruct (text_eqb_spec s' s) as [->|N]; [congruence|exact H].
    + intros s' o H. inversion H; subst. eexists. split; [reflexivity|]. 
      rewrite (aget_aset _ text_eqb_spec). destruct (text_eqb_spec s s); [reflexivity|contradiction].
  - apply bind_back in E. destruct E as (l' & c1 & E1 & E).
    destruct (IHl _ _ _ L T E1) as (L1 & T1 & G1 & V1).
    destruct l' as [l'|e]; [|destruct E as [-> ->]; auto].
    apply bind_back in E. destruct E as (r' & c2 & E2 & E).
    destruct (IHr _ _ _ L1 T1 E2) as (L2 & T2 & G2 & V2).
    assert (G : table_grows c c2) by (intros s' id H; apply G2, G1, H).
    destruct r' as [r'|e]; [|destruct E as [-> ->]; auto].
    injection E as <- <-. split; [exact L2|]. split; [exact T2|]. split; [exact G|].
    intros s' o H. inversion H; subst.
    + destruct (V1 s' o) as (id & -> & A); [assumption|]. exists id. split; [reflexivity|apply G2, A].
    + apply V2. assumption.
Qed.

Section Commands.
  Variable cfg : config.
  Variable fuel : nat.

  Lemma read_table command c t c1 :
    fair cfg -> ready c -> read_tree cfg fuel command c = Ok (Val t, c1) ->
    table_ok c1 /\
    (forall s o, has_variable s o t -> exists id, o = Some id /\ aget text_eqb s (c_vars c1) = Some id).
  Proof.
    intros F RD RT. set (snap := c_snap c).
    assert (C : cgood (below (size snap)) snap c).
    { split; [reflexivity|]. rewrite (ready_delta c RD), (ready_vars c RD). split; [apply good_delta_default|].
      split; [exact (ready_cache c RD)|]. intros ? []. }
    pose proof (ready_sane c RD) as S. fold snap in S.
    unfold read_tree in RT.
    apply bind_back in RT. destruct RT as (t1 & cc1 & E1 & E0).
    pose proof (cok_expression cfg F (below (size snap)) (fun u => I) snap (sane_ids _ S) fuel command c t1 cc1 C E1) as (C1 & S1 & G1).
    apply v_expression in E1. rewrite (ready_vars c RD) in E1.
    destruct t1 as [t1|e]; [|destruct E0; discriminate].
    apply bind_back in E0. destruct E0 as (t2 & c2 & E2 & E0).
    pose proof (cok_expand cfg F (below (size snap)) (fun u => I) snap (sane_ids _ S) fuel t1 G1 cc1 t2 c2 C1 E2) as (C2 & S2 & G2).
    apply v_expand in E2. rewrite E1 in E2.
    destruct t2 as [t2|e]; [|destruct E0; discriminate].
    apply obind_ok in E0. destruct E0 as ([x c3] & E3 & E0). destruct x as [x|]; [|discriminate].
    injection E0 as <- <-.
    assert (L : layers (c_delta c2) = [overlay (c_delta c2)]).
    { eapply steps_single; [eapply steps_trans; [exact S1|exact S2]|]. rewrite (ready_delta c RD). reflexivity. }
    assert (T : table_ok c2) by (split; rewrite E2; discriminate).
    destruct (create_table t2 c2 _ c3 L T E3) as (_ & T3 & _ & V). auto.
  Qed.

  Lemma read_good command c t c1 :
    fair cfg -> ready c -> read_tree cfg fuel command c = Ok (Val t, c1) ->
    cgood (below (size (c_snap c))) (c_snap c) c1 /\
    steps cfg (below (size (c_snap c))) (c_snap c) fuel (c_delta c) (c_delta c1) /\
    @good tree (good_tree (below (size (c_snap c)))) t.
  Proof.
    intros F RD RT. set (snap := c_snap c).
    assert (C : cgood (below (size snap)) snap c).
    { split; [reflexivity|]. rewrite (ready_delta c RD), (ready_vars c RD). split; [apply good_delta_default|].
      split; [exact (ready_cache c RD)|]. intros ? []. }
    pose proof (ready_sane c RD) as S. fold snap in S.
    unfold read_tree in RT.
    apply bind_back in RT. destruct RT as (t1 & cc1 & E1 & E0).
    pose proof (cok_expression cfg F (below (size snap)) (fun u => I) snap (sane_ids _ S) fuel command c t1 cc1 C E1) as (C1 & S1 & G1).
    destruct t1 as [t1|e]; [|destruct E0; discriminate].
    apply bind_back in E0. destruct E0 as (t2 & c2 & E2 & E0).
    pose proof (cok_expand cfg F (below (size snap)) (fun u => I) snap (sane_ids _ S) fuel t1 G1 cc1 t2 c2 C1 E2) as (C2 & S2 & G2).
    destruct t2 as [t2|e]; [|destruct E0; discriminate].
    apply obind_ok in E0. destruct E0 as ([x c3] & E3 & E0). destruct x as [x|]; [|discriminate].
    injection E0 as <- <-.
    pose proof (cok_create cfg (below (size snap)) (fun u => I) snap fuel t2 G2 c2 _ c3 C2 E3) as (C3 & S3 & G3).
    split; [exact C3|]. split; [|exact G3]. eapply steps_trans; [eapply steps_trans; eassumption|exact S3].
  Qed.

  Lemma steps_num P snap d d' :
    steps cfg P snap fuel d d' -> layers d = [overlay d] -> le (d_num (overlay d)) (d_num (overlay d')).
  Proof.
    intros ST L. induction ST as [d|d d1 x id d2 ST IH LG G U]; [reflexivity|].
    specialize (IH L). etransitivity; [exact IH|]. clear - U.
    destruct d1 as [o inner]. cbn [delta_update] in U. apply obind_ok in U.
    destruct U as ([id1 o1] & U & E). injection E as <- <-. apply update_layer_spec in U.
    destruct U as (_ & U2 & _). cbn. rewrite U2. unfold new_num. destruct x; lia.
  Qed.

  (** Every command only adds places to the store. *)
  Lemma execute_size command c answer c' :
    fair cfg -> ready c -> execute cfg fuel command c = Ok (answer, c') ->
    le (length (concepts (c_snap c))) (length (concepts (c_snap c'))).
  Proof.
    intros F RD E. destruct (execute_frame cfg fuel command c answer c' F RD E) as (z & c2 & _ & _ & _ & s2 & LK & _ & CC & _).
    rewrite CC. pose proof (lk_size _ _ _ _ _ LK) as Z. unfold size in Z. lia.
  Qed.

  (** The variables of a command are concepts that did not exist before it and that exist after it. *)
  Lemma variable_place command c answer c' t c1 s o :
    fair cfg -> ready c -> execute cfg fuel command c = Ok (answer, c') ->
    read_tree cfg fuel command c = Ok (Val t, c1) -> has_variable s o t ->
    exists id, o = Some id /\ aget text_eqb s (c_vars c1) = Some id /\
      le (length (concepts (c_snap c))) (place (c_snap c) id) /\
      lt (place (c_snap c) id) (length (concepts (c_snap c'))).
  Proof.
    intros F RD E RT H. destruct (read_table _ _ _ _ F RD RT) as [[T1 _] V].
    destruct (V _ _ H) as (id & -> & A). destruct (T1 _ _ A) as (u & -> & U).
    exists (Uncommitted u). split; [reflexivity|]. split; [exact A|]. cbn [place]. split; [lia|].
    destruct (execute_run cfg fuel command c answer c' F RD E) as (z & c2 & E1 & _).
    destruct (execute_frame cfg fuel command c answer c' F RD E) as (z' & c2' & E1' & _ & _ & s2 & LK & _ & CC & _).
    rewrite E1 in E1'. injection E1' as <- <-. rewrite CC.
    pose proof (lk_size _ _ _ _ _ LK) as Z. unfold size in Z. rewrite Z.
    destruct (run_by_tree _ _ _ _ _ _ E1) as (x & cx & Ex & Ec). rewrite RT in Ex. injection Ex as <- <-.
    destruct (read_good command c t c1 F RD RT) as (C1 & ST1 & G).
    pose proof (proj1 (cok_calls cfg F (below (size (c_snap c))) (fun u => I) (c_snap c) (sane_ids _ (ready_sane c RD)) fuel fuel)
       t G c1 z c2 C1 Ec) as (_ & ST2 & _).
    pose proof (steps_num _ _ _ _ ST2 (steps_single _ _ _ _ _ _ ST1 (eq_trans (f_equal layers (ready_delta c RD)) (eq_sym (f_equal (fun d => [overlay d]) (ready_delta c RD)))))) as N.
    lia.
  Qed.
End Commands.

Lemma further_ready b c c' : reachable b c -> further b c c' ->
  reachable b c' /\ le (length (concepts (c_snap c))) (length (concepts (c_snap c'))).
Proof.
  intros R H. apply clos_rt_rtn1 in H. induction H as [|c1 c2 (cfg & fuel & t & r & F & D & E) _ [IH L]]; [split; [exact R|reflexivity]|].
  split; [eapply reach_execute; eassumption|]. etransitivity; [exact L|].
  eapply execute_size; [exact F|apply (reachable_ready b), IH|exact E].
Qed.

(** ** The two halves of C35, for the leaves of the command's tree *)
Lemma same_command b cfg fuel command c t c1 s1 s2 o1 o2 :
  fair cfg -> reachable b c -> read_tree cfg fuel command c = Ok (Val t, c1) ->
  has_variable s1 o1 t -> has_variable s2 o2 t -> (s1 = s2 <-> o1 = o2).
Proof.
  intros F R RT H1 H2. destruct (read_table cfg fuel command c t c1 F (reachable_ready b c R) RT) as [[_ J] V].
  destruct (V _ _ H1) as (i1 & -> & A1). destruct (V _ _ H2) as (i2 & -> & A2). split.
  - intros ->. congruence.
  - intros [= ->]. exact (J _ _ _ A1 A2).
Qed.
Lemma other_command b cfg fuel command c answer c' t c1 cfg2 fuel2 command2 d answer2 d' t2 d1 s1 s2 o1 o2 :
  fair cfg -> dbg cfg = b -> reachable b c -> execute cfg fuel command c = Ok (answer, c') ->
  read_tree cfg fuel command c = Ok (Val t, c1) ->
  further b c' d ->
  fair cfg2 -> dbg cfg2 = b -> execute cfg2 fuel2 command2 d = Ok (answer2, d') ->
  read_tree cfg2 fuel2 command2 d = Ok (Val t2, d1) ->
  has_variable s1 o1 t -> has_variable s2 o2 t2 ->
  exists i1 i2, o1 = Some i1 /\ o2 = Some i2 /\
    (le (length (concepts (c_snap c))) (place (c_snap c) i1) /\
     lt (place (c_snap c) i1) (length (concepts (c_snap c')))) /\
    le (length (concepts (c_snap c'))) (place (c_snap d) i2) /\
    place (c_snap c) i1 <> place (c_snap d) i2.
Proof.
  intros F D R E RT FU F2 D2 E2 RT2 H1 H2.
  pose proof (reach_execute b cfg fuel command c answer c' F D R E) as R'.
  destruct (further_ready b c' d R' FU) as [Rd L].
  destruct (variable_place cfg fuel _ _ _ _ _ _ _ _ F (reachable_ready b c R) E RT H1) as (i1 & -> & _ & P1).
  destruct (variable_place cfg2 fuel2 _ _ _ _ _ _ _ _ F2 (reachable_ready b d Rd) E2 RT2 H2) as (i2 & -> & _ & P2).
  exists i1, i2. split; [reflexivity|]. split; [reflexivity|]. split; [exact P1|]. destruct P1, P2. split; lia.
Qed.
