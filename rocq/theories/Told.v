(** What a written declaration does to the store, in full. *)
From Verif Require Import Lexer LexerSpec Parser Context StoreSpec NameSpec FrameSpec MapFacts AstSpec AstFacts StoreFacts StoreInv RangeFacts
  History Sim SimRead Steps Keep Links Meaning Names OneName Frames StoreLaws Pending Quiet Reductions Declare Define Expressions
  Grouping Keeping Naming Words Said OwnTrees Follow Settled Spoken WideNames OwnKinds Spelled Uttered Added.
From Coq Require Import List String Relations Permutation PeanoNat Lia.
Import ListNotations.
Local Open Scope zia_scope.

Section Told.
  Variables (cfg : config) (fuel : nat).
  Hypothesis F : fair cfg.
  Hypothesis D : dbg cfg = true.
  Variable c : ctx.
  Hypothesis RL : reachable_with true (links_safe true) c.
  Let R := reachable_without _ _ _ RL.
  Local Notation snap := (c_snap c).
  Local Notation n0 := (size snap).
  Local Notation rho := (rho snap).
  Local Notation amounts_to := (amounts_to cfg snap fuel).
  Local Notation sound := (sound cfg snap fuel).
  Local Notation keeps := (keeps cfg snap fuel).
  Local Notation named := (named cfg snap fuel).
  Let RD := reachable_ready _ _ R.
  Let S := ready_sane c RD.
  Let P := ready_prev c RD.
  Let Ed := ready_delta c RD.
  Let HB := label_built_in c R.
  Variable lab : nat.
  Hypothesis BL : built_in snap lab CLabel.

  (** ** Reading *)
  Lemma leaf_tells kd w o ca t cb : sound ca -> (exists s, amounts_to (c_delta ca) s) ->
    ast_from_syntax_leaf cfg fuel kd w o ca = Ok (Val t, cb) ->
    exists l, pending cb = pending ca ++ l /\ Forall (fun p => tells lab (eq w) (snd p)) l.
  Proof.
    intros SD (s & AM) E. unfold ast_from_syntax_leaf in E. apply bind_back in E. destruct E as ([id|e] & c1 & E & E'); [|destruct E'; discriminate].
    injection E' as _ <-. destruct o as [x|]; [injection E as _ <-; exists []; rewrite app_nil_r; auto|].
    apply bind_back in E. destruct E as ([[]|e] & c2 & E1 & E); [|destruct E; discriminate]. 
    assert (c2 = ca) as -> by (unfold need_delta in E1; destruct (pinned ca); congruence).
    apply bind_back in E. destruct E as ([k|e] & c3 & E2 & E); [|destruct E; discriminate]. apply lift_back in E2. destruct E2 as [-> E2].
    destruct k as [x|]; [injection E as _ <-; exists []; rewrite app_nil_r; auto|].
    apply bind_back in E. destruct E as ([l|e] & c3 & E3 & E); [|destruct E; discriminate]. unfold c_concrete_id in E3. apply lift_back in E3. destruct E3 as [-> E3].
    destruct (amounts_linked cfg snap fuel S P _ _ AM) as (LK & _ & _ & T & SB).
    rewrite (proj1 (proj1 SD)) in E3. apply (linked_concrete_id _ _ _ _ _ _ _ F LK T SB) in E3.
    rewrite (label_index true c R lab BL) in E3. cbn in E3. subst l.
    unfold new_labelled_concept in E. apply bind_back in E. destruct E as ([[]|e] & c3 & E4 & E); [|destruct E; discriminate]. apply lift_back in E4. destruct E4 as [-> _].
    apply bind_back in E. destruct E as ([str|e] & c4 & E5 & E); [|destruct E; discriminate]. apply update_pending in E5. destruct E5 as (str' & [= <-] & _ & P5 & _ & u & ->).
    apply bind_back in E. destruct E as ([comp|e] & c5 & E6 & E); [|destruct E; discriminate]. apply update_pending in E6. destruct E6 as (comp' & [= <-] & _ & P6 & _ & v & ->).
    apply update_pending in E. destruct E as (id' & _ & _ & P7 & _).
    eexists. split; [rewrite P7, P6, P5, <- !app_assoc; reflexivity|]. repeat constructor.
  Qed.
  Notation kf := (kind_of_symbol cfg fuel c).
  Lemma pair_still l r ca t cb : ast_from_pair cfg fuel l r ca = Ok (t, cb) -> pending cb = pending ca.
  Proof.
    intros E. unfold ast_from_pair in E. apply bind_back in E. destruct E as ([ty|e] & c3 & X1 & E).
    2:{ destruct E as [_ ->]. apply still_type_of in X1. unfold pending. rewrite (proj2 X1). reflexivity. }
    apply still_type_of in X1. apply bind_back in E. destruct E as (y & c4 & X2 & E).
    assert (X : pending c4 = pending ca).
    { unfold pending. destruct (_ && _)%bool; injection X2 as _ <-; cbn; rewrite (proj2 X1); reflexivity. }
    destruct y as [y|e]; [|destruct E as [_ ->]; exact X]. apply still_combine in E. unfold pending in *. rewrite (proj2 E). exact X.
  Qed.
  Lemma reads_tells p : forall ca t cb, reads cfg fuel kf p ca t cb -> sound ca -> keeps c ca -> (exists s, amounts_to (c_delta cb) s) ->
    exists l, pending cb = pending ca ++ l /\ Forall (fun q => tells lab (fun w => In w (words_of p)) (snd q)) l.
  Proof.
    induction p as [w|a IHa b IHb]; intros ca t cb RE SD KP (s & AM).
    - destruct (reads_logs cfg fuel c (Word w) ca t cb RE) as (l & El & _). destruct (earlier cfg fuel c _ _ _ _ SD El AM) as (s' & AM').
      destruct RE as (k & n & K & <- & E). unfold from_concept_kind in E. cbn [ast_from_nested_syntax] in E.
      destruct (leaf_tells _ _ _ _ _ _ SD (ex_intro _ _ AM') E) as (l' & E' & T). exists l'. split; [exact E'|].
      eapply Forall_impl; [|exact T]. intros q. apply tells_wider. intros v <-. left. reflexivity.
    - pose proof RE as (ta & c1 & tb & c2 & Ra & Rb & E).
      destruct (reads_named cfg fuel F D c RL _ _ _ _ Ra SD KP) as (S1 & K1 & _). pose proof (keeps_trans _ _ _ _ _ _ KP K1) as KP1.
      destruct (reads_named cfg fuel F D c RL _ _ _ _ Rb S1 KP1) as (S2 & K2 & _). pose proof (pair_still _ _ _ _ _ E) as PS.
      assert (A2 : exists s, amounts_to (c_delta c2) s).
      { apply (earlier cfg fuel c c2 cb [] s S2); [rewrite app_nil_r; exact PS|exact AM]. }
      destruct (IHb _ _ _ Rb S1 KP1 A2) as (l2 & E2 & T2). destruct A2 as (s2 & A2).
      destruct (IHa _ _ _ Ra SD KP (earlier cfg fuel c _ _ _ _ S1 E2 A2)) as (l1 & E1 & T1).
      exists (l1 ++ l2). rewrite PS, E2, E1, <- app_assoc, Forall_app. split; [reflexivity|].
      split; (eapply Forall_impl; [|eassumption]); intros q; apply tells_wider; intros v J; cbn; apply in_or_app; auto.
  Qed.
  Lemma top_tells p u c0 s0 : proper p -> ast_from_expression cfg fuel (spelled p) c = Ok (Val u, c0) -> amounts_to (c_delta c0) s0 ->
    Forall (fun q => tells lab (fun w => In w (words_of p)) (snd q)) (pending c0).
  Proof.
    intros PR E AM. pose proof (spelled_reads cfg fuel p c u c0 PR E) as RE.
    assert (KP : keeps c c) by (intros w x H; exact H). pose proof (start_sound cfg fuel c R) as SD.
    assert (PC : pending c = []) by (unfold pending; rewrite Ed; reflexivity).
    destruct p as [w|a b].
    - destruct (reads_tells (Word w) _ _ _ RE SD KP (ex_intro _ _ AM)) as (l & El & T). rewrite El, PC. exact T.
    - destruct RE as (ta & ca & tb & Ra & Rb & ->).
      destruct (reads_named cfg fuel F D c RL _ _ _ _ Ra SD KP) as (S1 & K1 & _). pose proof (keeps_trans _ _ _ _ _ _ KP K1) as KP1.
      destruct (reads_tells _ _ _ _ Rb S1 KP1 (ex_intro _ _ AM)) as (l2 & E2 & T2).
      destruct (reads_tells _ _ _ _ Ra SD KP (earlier cfg fuel c _ _ _ _ S1 E2 AM)) as (l1 & E1 & T1).
      rewrite E2, E1, PC. cbn [app]. apply Forall_app.
      split; (eapply Forall_impl; [|eassumption]); intros q; apply tells_wider; intros v J; cbn; apply in_or_app; auto.
  Qed.
  Lemma top_keeps p u c0 : proper p -> ast_from_expression cfg fuel (spelled p) c = Ok (Val u, c0) -> keeps c c0.
  Proof.
    intros PR E. pose proof (spelled_reads cfg fuel p c u c0 PR E) as RE.
    assert (KP : keeps c c) by (intros w x H; exact H). pose proof (start_sound cfg fuel c R) as SD.
    destruct p as [w|a b]; [exact (proj1 (proj2 (reads_named cfg fuel F D c RL _ _ _ _ RE SD KP)))|].
    destruct RE as (ta & ca & tb & Ra & Rb & ->).
    destruct (reads_named cfg fuel F D c RL _ _ _ _ Ra SD KP) as (S1 & K1 & _). pose proof (keeps_trans _ _ _ _ _ _ KP K1) as KP1.
    eapply keeps_trans; [exact K1|]. exact (proj1 (proj2 (reads_named cfg fuel F D c RL _ _ _ _ Rb S1 KP1))).
  Qed.
  Lemma update_empties x ca r cb : update x ca = Ok (r, cb) -> c_cache cb = empty_cache.
  Proof. unfold update. intros E. apply obind_ok in E. destruct E as ([id d'] & _ & E). injection E as _ <-. reflexivity. Qed.
  Lemma reduction_empties x w y ca cb : update_reduction cfg fuel x w y ca = Ok (Val tt, cb) -> c_cache cb = empty_cache.
  Proof.
    intros E. unfold update_reduction in E.
    apply bind_back in E. destruct E as ([n|e] & c6 & _ & E); [|destruct E; discriminate].
    destruct (option_eqb cid_eqb n (Some x)); [discriminate|].
    apply bind_back in E. destruct E as ([m|e] & c7 & _ & E); [|destruct E; discriminate].
    destruct (option_eqb cid_eqb (m_reduction m) (Some y)); [discriminate|].
    apply bind_back in E. destruct E as ([rc|e] & c8 & _ & E); [|destruct E; discriminate].
    destruct (cid_eqb y rc); [discriminate|].
    apply bind_back in E. destruct E as ([i|e] & c9 & E9 & E); [|destruct E; discriminate]. injection E as <-. exact (update_empties _ _ _ _ E9).
  Qed.
  Lemma created_still p : forall t2 c3 t c1, faithful snap p t -> create_variable_concepts t2 c3 = Ok (Val t, c1) -> c1 = c3.
  Proof.
    induction p as [w|a IHa b IHb]; intros t2 c3 t c1 H E.
    - destruct H as (v & x & k & -> & K & _). destruct t2 as [v' o k'|v' o l r fv bv].
      + destruct (created_leaf _ _ _ _ _ _ E) as (o' & [= <- <- <-] & _). cbn [create_variable_concepts] in E. destruct k; try congruence; injection E as _ <-; auto.
      + destruct (created_exp _ l r _ _ _ E eq_refl) as (? & ? & ? & X & _). discriminate X.
    - destruct H as (_ & l & r & X & Hl & Hr). destruct t2 as [v' o k'|v' o l2 r2 fv bv].
      + destruct (created_leaf _ _ _ _ _ _ E) as (o' & -> & _). discriminate X.
      + destruct (created_exp _ l2 r2 _ _ _ E eq_refl) as (l' & r' & c4 & X' & El & Er). rewrite X in X'. injection X' as <- <-.
        rewrite (IHb _ _ _ _ Hr Er). exact (IHa _ _ _ _ Hl El).
  Qed.

  (** ** The declaration *)
  Theorem told_trace tell arrow w1 w2 c' :
    let p := Both (Word tell) (Both (Word w1) (Both (Word arrow) (Word w2))) in
    unjoined snap p -> names_built_in snap tell CLet -> names_built_in snap arrow CReduction ->
    (forall n y, found_under snap w1 n -> ~ lists_reduction_from snap y n) ->
    execute cfg fuel (spelled p) c = Ok ([], c') ->
    exists x1 x2 d1 d2 s1 s2 ch c2,
      amounts_to d1 s1 /\ Forall (fun q => tells lab (fun w => In w (words_of p)) (snd q)) (d_order (overlay d1)) /\
      amounts_to d2 s2 /\ d_order (overlay d2) = d_order (overlay d1) ++ [(x1, DReduce x1 ch)] /\ Delta.after ch = Some x2 /\
      apply_direct (dbg cfg) x1 (DReduce x1 ch) s1 = Ok s2 /\ good_direct (below n0) (DReduce x1 ch) /\
      found_under s1 w1 (rho x1) /\ found_under s1 w2 (rho x2) /\
      (forall w x, found_under s1 w x -> found_under s2 w x) /\ (forall w x, found_under snap w x -> found_under s1 w x) /\
      (forall y, ~ lists_reduction_from s1 y (rho x1)) /\ red_at s1 (rho x1) = None /\
      concepts (c_snap c') = concepts s2 /\ (forall v, aget text_eqb v (string_map (c_snap c')) = aget text_eqb v (string_map s2)) /\
      run_command cfg fuel (spelled p) c = Ok (Val [], c2) /\ c_delta c2 = d2 /\ c_cache c2 = empty_cache /\
      legit cfg snap fuel d1 (DReduce x1 ch).
  Proof.
    intros p U NL NA UL E. pose proof U as (_ & (U1 & (_ & U2 & _) & _) & _).
    destruct (uttered cfg fuel F D c RL p [] c' U E silence) as (u & c0 & t & c1 & E0 & SA & RT & FA & _).
    pose proof FA as (T1 & tl & ta & T2 & (vl & xl & kl & -> & _ & Sl) & _ & a & q & T3 & (va & xa & ka & -> & Ka & Sa) & _ & ar & b & T4 & (vr & xr & kr & -> & _ & Sr) & (vb & xb & kb & -> & Kb & Sb)).
    destruct (stands_built_in c _ _ _ NL Sl) as (nl & -> & B1). destruct (stands_built_in c _ _ _ NA Sr) as (na & -> & B2).
    pose proof SA as (ul & ut & P1 & _ & t1 & up & P2 & (x1 & k1 & -> & _) & uf & t2 & P3 & _ & (x2 & k2 & -> & _)).
    destruct (command_words cfg fuel F D (spelled p) c [] c' u c0 R E0 E silence)
      as (t' & c1' & c2 & s2 & Rt & Ec & SD1 & N1 & SD2 & ST2 & AM2 & X1 & X2).
    rewrite RT in Rt. injection Rt as <- <-.
    destruct (command_run cfg fuel _ _ _ _ _ _ F RD E RT)
      as (z & c2' & s1' & s2' & EC & EA & ES1 & ES2 & EX & LK1 & EX1 & _ & ST & LK2 & A2 & CC & FR & OT).
    rewrite Ec in EC. injection EC as <- <-.
    destruct (N1 w1 (Some x1)) as (x1' & [= <-] & H1).
    { rewrite (names_pair _ _ _ P1), (names_pair _ _ _ P2). apply in_or_app. right. left. reflexivity. }
    destruct (N1 w2 (Some x2)) as (x2' & [= <-] & H2).
    { rewrite (names_pair _ _ _ P1), (names_pair _ _ _ P2), (names_pair _ _ _ P3). apply in_or_app. right.
      apply in_or_app. right. apply in_or_app. right. left. reflexivity. }
    pose proof (read_names cfg fuel _ _ _ _ RD RT) as NM.
    destruct (found_stays cfg snap fuel S P _ _ ST2 (proj2 SD1) s2 AM2) as (s1 & l & AM1 & _).
    set (a := TLeaf va (Some xa) ka) in *. set (b := TLeaf vb (Some xb) kb) in *.
    assert (V1 : is_leaf_variable a = false) by (destruct ka; congruence || reflexivity).
    assert (V2 : is_leaf_variable b = false) by (destruct kb; congruence || reflexivity).
    assert (SW1 : simple_word snap w1) by apply labels_simple, U1.
    assert (SW2 : simple_word snap w2) by apply labels_simple, U2.
    assert (CA : t_concept a = Some x1 /\ t_concept b = Some x2).
    { pose proof (read_spoken cfg fuel F D c R (spelled p) u c0 t c1 s1 E0 RT AM1) as SP.
      destruct (spoken_pair _ _ _ _ _ P1 SP) as (l' & r' & Q1 & _ & SP2). rewrite T2 in Q1. injection Q1 as <- <-.
      destruct (spoken_pair _ _ _ _ _ P2 SP2) as (l' & r' & Q2 & Qa & SP3). rewrite T3 in Q2. injection Q2 as <- <-.
      destruct (spoken_pair _ _ _ _ _ P3 SP3) as (l' & r' & Q3 & _ & Qb). rewrite T4 in Q3. injection Q3 as <- <-.
      split; [exact (proj1 (spoken_word _ _ _ _ _ _ SW1 eq_refl V1 Qa))|exact (proj1 (spoken_word _ _ _ _ _ _ SW2 eq_refl V2 Qb))]. }
    destruct CA as [Ca Cb]. pose proof (H1 _ AM1) as F1. pose proof (H2 _ AM1) as F2.
    pose proof (word_unreduced cfg fuel c R _ _ _ _ AM1 NM F1 UL) as RU.
    assert (CD : execute_reduction cfg fuel a b c1 = Ok (Val tt, c2)).
    { destruct (call_declares cfg fuel t _ ta a q _ b _ _ c1 _ c2 T1 T2 T3 T4 eq_refl eq_refl
        (built_in_type cfg c1 s1' _ _ _ ES1 LK1 EX1 B1) (built_in_type cfg c1 s1' _ _ _ ES1 LK1 EX1 B2) Ec) as [(e & [=] & _)|(DD & _)]. exact DD. }
    assert (K : t_key a <> t_key b).
    { intros K. unfold execute_reduction in CD. destruct (t_contains b a); [discriminate|].
      destruct (key_eqb_spec (t_key a) (t_key b)) as [_|]; [|contradiction].
      destruct (removing_changes cfg a c1 _ c2 CD) as (x & y & m & _ & Cx & RM & MR). rewrite Ca in Cx. injection Cx as <-.
      rewrite ES1 in RM. destruct (linked_read _ _ _ _ _ _ _ (proj1 (amounts_linked cfg snap fuel S P _ _ AM1)) RM) as (_ & kk & L & SM).
      pose proof RU as RU'. unfold red_at in RU'. rewrite L in RU'.
      pose proof (sim_red _ _ _ _ _ SM) as SR. rewrite MR in SR. pose proof (sim_spec _ _ _ _ _ SM) as SQ. cbn in SQ.
      unfold get_reduction in RU'. destruct (m_spec m) as [|? []|]; try discriminate SR. destruct (c_spec kk) as [|[] []|]; discriminate. }
    destruct (execute_reduction_trace cfg fuel a b c1 c2 K CD) as (ex & ex2 & d1 & d2 & d3 & d4 & d5 & x & y & G1 & G2 & G3 & G4 & G5 & G6).
    assert (ED : c_delta d5 = c_delta c1 /\ x = x1 /\ y = x2).
    { apply still_reduce in G1. destruct G1 as [_ G1].
      assert (Y : c_delta d2 = c_delta d1).
      { destruct ex; [injection G2 as _ <-; reflexivity|apply still_inferred in G2; apply G2]. }
      apply still_need in G3. destruct G3 as [_ G3].
      assert (CF : forall q, concept_from_ast cfg fuel q = match t_concept q with Some i => cret i | None => concept_from_ast cfg fuel q end).
      { intros r. destruct r as [? [?|] ?|? [?|] ? ? ? ?]; reflexivity. }
      rewrite CF, Ca in G4. rewrite CF, Cb in G5. injection G4 as <- <-. injection G5 as <- <-. split; [congruence|auto]. }
    destruct ED as (ED & -> & ->).
    pose proof (update_reduction_last cfg fuel _ _ _ _ _ G6) as (ch & PE & AF). unfold pending in PE. rewrite ED in PE.
    pose proof (steps_single _ _ _ _ _ _ (proj2 SD1) eq_refl) as Ly.
    destruct (steps_one cfg fuel c (c_delta c1) (c_delta c2) _ _ ST2 Ly PE) as (LG & G & UP).
    destruct (amounts_step cfg snap fuel (c_delta c1) _ _ (c_delta c2) s2 (proj2 SD1) UP AM2) as (s1x & AM1x & AD).
    pose proof (amounts_same cfg snap fuel _ _ _ AM1 AM1x) as ->.
    pose proof (word_unlisted cfg fuel c R _ _ _ _ AM1 NM F1 UL) as HL.
    assert (TL : keeps c c1 /\ Forall (fun q => tells lab (fun w => In w (words_of p)) (snd q)) (pending c1)).
    { pose proof RT as Rt'. unfold read_tree in Rt'. apply bind_back in Rt'. destruct Rt' as (y & cc & E2 & Rt').
      rewrite E0 in E2. injection E2 as <- <-.
      apply bind_back in Rt'. destruct Rt' as ([tt2|e] & c3 & E3 & Rt'); [|destruct Rt'; discriminate].
      apply obind_ok in Rt'. destruct Rt' as ([[y|] c4] & E4 & Rt'); [|discriminate]. injection Rt' as -> ->.
      destruct (unmoving_search (fun c e => o_expand (ops_of cfg fuel c) e u) _ _ _ E3) as [_ E3d].
      pose proof (created_still p _ _ _ _ FA E4) as ->. unfold pending. rewrite E3d. rewrite E3d in AM1. split.
      { intros w x H s0 A0. apply (top_keeps p u c0 (unjoined_proper _ _ U) E0 w x H). rewrite E3d in A0. exact A0. }
      exact (top_tells p u c0 s1 (unjoined_proper _ _ U) E0 AM1). }
    destruct TL as [KP TL].
    exists x1, x2, (c_delta c1), (c_delta c2), s1, s2, ch, c2.
    split; [exact AM1|]. split; [exact TL|]. split; [exact AM2|]. split; [exact PE|]. split; [exact AF|]. split; [exact AD|]. split; [exact G|].
    split; [exact F1|]. split; [exact F2|].
    split; [intros w x; exact (harmless_step cfg snap fuel S P _ _ _ _ _ _ w x (proj2 SD1) LG G UP AM1 AD HL ltac:(discriminate))|].
    split.
    { intros w x Fx. exact (KP w (Committed x) (known_here cfg fuel c RL w x Fx) s1 AM1). }
    split; [exact HL|]. split; [exact RU|]. split; [exact X1|]. split; [exact X2|].
    split; [|split; [reflexivity|split; [exact (reduction_empties _ _ _ _ _ G6)|exact LG]]].
    destruct (execute_run cfg fuel _ c [] c' F RD E) as (z & c3 & E1 & _). destruct (run_by_tree _ _ _ _ _ _ E1) as (y & c4 & RT' & Ec').
    rewrite RT in RT'. injection RT' as <- <-. rewrite Ec in Ec'. injection Ec' as <- <-. exact E1.
  Qed.
End Told.
