(** What is bracketed is read as it is said: commands of words in bracketed pairs that no concepts are composed of. *)
From Verif Require Import Parser Context StoreSpec NameSpec FrameSpec MapFacts AstSpec AstFacts StoreFacts StoreInv RangeFacts
  History Sim SimRead Steps Keep Links Meaning Names OneName Frames StoreLaws Pending Quiet Reductions Declare Define Expressions
  Questions SearchKeeps SearchCaches Existence Earned CacheRun StoreLaws Displays Grouping Keeping Naming Words Said OwnTrees Follow Settled Spoken
  WideNames OwnKinds Spelled Replies.
From Coq Require Import String List Relations Permutation PeanoNat Lia.
Import ListNotations.
Local Open Scope zia_scope.

(** ** Specification *)
(** Words that are no variables and that, if they stand for something, are the label of a concept
    without parts; and no concept is composed of what two words paired with each other stand for. *)
Definition labels (s : snapshot) (w : text) : Prop :=
  forall n, found_under s w n -> (forall l r, ~ composed s n l r) /\ ~ leaf_variable s n FreeVariable /\ carries_label s n w.
Fixpoint unjoined (s : snapshot) (p : phrase) : Prop :=
  match p with
  | Word w => word w /\ ~ underscored w /\ labels s w
  | Both a b => unjoined s a /\ unjoined s b /\
    match a, b with
    | Word v, Word w => (forall x y z, found_under s v x -> found_under s w y -> ~ composed s z x y) /\
                        forall x, found_under s v x -> ~ built_in s x CLabel
    | _, _ => True
    end
  end.
(** The leaf stands for what the word stands for, or for something new. *)
Definition stands (s : snapshot) (w : text) (x : cid) : Prop :=
  (forall n, found_under s w n -> exists m, x = Committed m /\ found_under s w m) /\
  ((forall n, ~ found_under s w n) -> exists u, x = Uncommitted u).
(** The tree has a leaf that is no variable for each word, and pairs that stand for nothing. *)
Fixpoint faithful (s : snapshot) (p : phrase) (t : tree) : Prop :=
  match p with
  | Word w => exists v x k, t = TLeaf v (Some x) k /\ k <> LVariable /\ stands s w x
  | Both a b => t_concept t = None /\ exists l r, t_exp t = Some (l, r) /\ faithful s a l /\ faithful s b r
  end.
(** The same as it is read. *)
Fixpoint said (s : snapshot) (p : phrase) (t : tree) : Prop :=
  match p with
  | Word w => exists x k, t = TLeaf w (Some x) k /\ stands s w x
  | Both a b => exists l r, pair_of t l r /\ said s a l /\ said s b r
  end.
(** What the word stands for is the built-in concept. *)
Definition names_built_in (s : snapshot) (w : text) (cc : cct) : Prop := exists n, built_in s n cc /\ forall m, found_under s w m <-> m = n.
Lemma labels_simple s w : labels s w -> simple_word s w.
Proof.
  intros H n X. destruct (H n X) as (A & B & _). split.
  - destruct (comp_at s n) as [[l r]|] eqn:C; [|reflexivity]. apply composed_at in C. destruct (A _ _ C).
  - intros C. apply B, leaf_variable_at, C.
Qed.
Lemma unjoined_proper s p : unjoined s p -> proper p.
Proof.
  induction p as [w|a IHa b IHb]; intros H v J.
  - destruct J as [<-|[]]. apply H.
  - destruct H as (Ha & Hb & _). cbn in J. apply in_app_or in J. destruct J as [J|J]; [exact (IHa Ha v J)|exact (IHb Hb v J)].
Qed.

Section Firm.
  Variables (cfg : config) (snap : snapshot) (fuel : nat).
  Hypothesis F : fair cfg.
  Hypothesis S : sane snap.
  Hypothesis P : prev_unc snap = [].
  Hypothesis D : dbg cfg = true.
  Hypothesis CI : forall l, built_in snap l CLabel -> bimap_by_right CLabel (concrete_concepts snap) = Some l.
  Notation ops n := (search cfg snap fuel n).
  Variable d : delta.
  (** No pending or stored concept is composed of the two. *)
  Definition apart (l r : tree) : Prop := forall lc rc m, t_concept l = Some lc -> t_concept r = Some rc ->
    read_concept cfg snap d lc = Ok m -> m_find_as_hand m rc HLeft = None.
  Lemma combined_apart o e l r s t s' : e_delta e = d -> combine_ast cfg snap o e l r s = Ok (t, s') -> apart l r -> t_concept t = None.
  Proof.
    intros De E H. unfold combine_ast in E. apply sb in E. destruct E as (k & s1 & E1 & E).
    assert (k = None) as ->.
    { unfold composition_concept in E1. destruct (t_concept l) as [lc|] eqn:L, (t_concept r) as [rc|] eqn:R; try (injection E1 as <- _; reflexivity).
      apply sb in E1. destruct E1 as (m & s2 & E1 & E2). injection E2 as <- _. apply read_ok in E1. destruct E1 as [E1 _]. unfold known in E1. rewrite De in E1.
      exact (H lc rc m L R E1). }
    apply sb in E. destruct E as (y & s2 & E2 & E). injection E as <- _. unfold join in E2. apply sb in E2. destruct E2 as (x & s3 & _ & E2). injection E2 as <- _.
    unfold bind_pair, branch, from_text. cbn. destruct (pair_vars l r). reflexivity.
  Qed.
  Fixpoint firm (u t : tree) : Prop :=
    match u with
    | TLeaf _ (Some x) _ => plainly cfg snap fuel d x -> exists v k, t = TLeaf v (Some x) k /\ k <> LVariable
    | TBranch _ None l r _ _ => exists l' r', t_exp t = Some (l', r') /\ (apart l' r' -> t_concept t = None) /\ firm l l' /\ firm r r'
    | _ => True
    end.
  Let N := sane_numbers _ S.
  Lemma expand_firm : forall u n e s t s', own cfg snap d e -> e_delta e = d -> own_trees cfg snap d s /\ kind_trees cfg snap fuel d s ->
    o_expand (ops n) e u s = Ok (t, s') -> firm u t.
  Proof.
    induction u as [w [x|] k|w [x|] l IHl r IHr fv bv]; intros n e s t s' Se De H E; try exact I.
    - intros Px. pose proof (expand_kinds cfg snap fuel F S P CI x w k n e s t s' d Se De H Px E) as V.
      destruct (expand_follows cfg snap fuel D N d _ n e s t s' Se De (proj1 H) E) as (v & kd & ->).
      { intros m R. exact (plainly_plain cfg snap fuel S P d x m Px R). }
      exists v, kd. split; [reflexivity|]. intros ->. discriminate V.
    - destruct n as [|n]; [discriminate|]. cbn [search step o_expand] in E. unfold expand in E. cbn [t_concept t_exp] in E.
      apply sb in E. destruct E as (l' & s1 & El & E). apply sb in E. destruct E as (r' & s2 & Er & E).
      exists l', r'. split; [exact (combined_exp _ _ D _ _ _ _ _ _ _ E)|]. split; [exact (combined_apart _ _ _ _ _ _ _ De E)|].
      split; [exact (IHl n e s l' s1 Se De H El)|].
      pose proof (search_kp _ _ _ _ _ _ _ _ (kind_laws cfg snap fuel F S P CI d) n) as K.
      destruct (kp_expand _ _ _ _ K e l Se s l' s1 H El) as [H1 _]. exact (IHr n e s1 r' s2 Se De H1 Er).
  Qed.
End Firm.
Lemma c_expand_firm cfg snap fuel u c t c' :
  fair cfg -> sane snap -> prev_unc snap = [] -> dbg cfg = true ->
  (forall l, built_in snap l CLabel -> bimap_by_right CLabel (concrete_concepts snap) = Some l) ->
  kinds cfg snap fuel c -> c_expand cfg fuel u c = Ok (Val t, c') -> firm cfg snap fuel (c_delta c) u t.
Proof.
  intros F S P D CI (Es & H & K) E. unfold c_expand, with_search in E.
  destruct (o_expand (ops_of cfg fuel c) (new_env (c_delta c) (c_bound c)) u (start_state (c_cache c) (c_tick c))) as [[y s]| | |] eqn:X; try discriminate.
  injection E as -> _. unfold ops_of in X. rewrite Es in X. unfold own_cache in H. rewrite Es in H.
  eapply (expand_firm cfg snap fuel F S P D CI (c_delta c) u); [| | |exact X].
  - split; [constructor|]. intros x v G. discriminate G.
  - reflexivity.
  - split; intros [|[|h]] x v J; cbn in J; try contradiction; [apply H, J|apply K, J].
Qed.

Lemma naming_safe b x : naming x -> links_safe b x.
Proof. destruct x as [[]| | |]; try contradiction; intros _; exact I. Qed.
Lemma found_lt s w x : sane s -> found_under s w x -> lt x (size s).
Proof. intros S (str & comp & lab & _ & _ & C & _). apply composed_at in C. exact (proj2 (comp_parts_lt s _ _ _ S C)). Qed.
Lemma unvaried w : ~ underscored w -> is_variable_text w = false.
Proof.
  intros N. unfold is_variable_text. destruct (starts_with c_underscore w && ends_with c_underscore w)%bool eqn:E; [|reflexivity].
  destruct N. apply underscored_spec. exact E.
Qed.

Section Uttered.
  Variables (cfg : config) (fuel : nat).
  Hypothesis F : fair cfg.
  Hypothesis D : dbg cfg = true.
  Variable c : ctx.
  Hypothesis RL : reachable_with true (links_safe true) c.
  Let R := reachable_without _ _ _ RL.
  Local Notation snap := (c_snap c).
  Local Notation n0 := (size snap).
  Local Notation rho := (rho snap).
  Local Notation amounts_to := (amounts_to cfg snap fuel).
  Local Notation sound := (sound cfg snap fuel).
  Local Notation keeps := (keeps cfg snap fuel).
  Local Notation named := (named cfg snap fuel).
  Local Notation here := (here cfg snap fuel).
  Let RD := reachable_ready _ _ R.
  Let S := ready_sane c RD.
  Let P := ready_prev c RD.
  Let Ed := ready_delta c RD.
  Let HB := label_built_in c R.
  Let CI := label_index true c R.

  Lemma pending_facts d s : amounts_to d s -> Forall (fun p => naming (snd p)) (d_order (overlay d)) ->
    linked cfg snap true d s /\ links_agree s /\ strings_true s.
  Proof.
    intros [ST A] NM. destruct (reached_facts cfg fuel snap S P (reachable_links _ _ RL) (reachable_strings _ _ R) d s) as (LK & LA & TR & _); [|auto].
    split; [exact ST|]. split; [exact A|]. intros id x J. rewrite Forall_forall in NM. exact (naming_safe _ _ (NM _ J)).
  Qed.
  (** Words that nothing is composed of. *)
  Lemma words_apart d s v w x y m : amounts_to d s -> Forall (fun p => naming (snd p)) (d_order (overlay d)) ->
    (forall x y z, found_under snap v x -> found_under snap w y -> ~ composed snap z x y) ->
    (forall x, found_under snap v x -> ~ built_in snap x CLabel) ->
    found_under s v (rho x) -> found_under s w (rho y) ->
    read_concept cfg snap d x = Ok m -> m_find_as_hand m y HLeft = None.
  Proof.
    intros AM NM H1 H2 Fx Fy RM. destruct (m_find_as_hand m y HLeft) as [id|] eqn:FM; [|reflexivity]. exfalso.
    destruct (pending_facts d s AM NM) as (LK & LA & TR).
    assert (C : comp_at s (rho id) = Some (rho x, rho y)).
    { destruct (linked_read _ _ _ _ _ _ _ LK RM) as (Dx & k & L & SM).
      destruct (sim_hand_dom _ _ _ _ _ SM eq_refl _ _ _ FM) as [Dr _].
      pose proof (sim_hand _ _ _ _ _ SM eq_refl y HLeft Dr) as X. rewrite FM in X. cbn in X.
      apply (proj2 LA). left. unfold hand_at. rewrite L. symmetry. exact X. }
    destruct (Nat.lt_ge_cases (rho id) n0) as [Lz|Lz].
    - destruct (old_word cfg snap fuel S P d s _ AM NM Lz) as (Cz & _). rewrite C in Cz. symmetry in Cz.
      destruct (comp_parts_lt snap _ _ _ S Cz) as [Lx Ly]. apply composed_at in Cz.
      exact (H1 _ _ _ (older_name cfg snap fuel S P d s _ _ AM NM Fx Lx) (older_name cfg snap fuel S P d s _ _ AM NM Fy Ly) Cz).
    - destruct (all_settled cfg snap fuel S P d (proj1 AM) s AM NM) as [Q1 Q2].
      destruct (Q1 _ _ _ Lz C) as (Ly & _ & _ & _ & Un). pose proof Fy as (str & comp & lab & _ & _ & Cc & B).
      apply composed_at in Cc. assert (Lc : le n0 comp).
      { destruct (Nat.lt_ge_cases comp n0) as [Lc|Lc]; [|exact Lc]. destruct (Q2 _ Lc) as (A2 & _). rewrite Cc in A2. symmetry in A2.
        apply (comp_parts_lt snap _ _ _ S) in A2. lia. }
      rewrite (Un comp lab Lc Cc), C in Cc. injection Cc as E. rewrite <- E in B.
      destruct (amounts_linked cfg snap fuel S P _ _ AM) as (_ & _ & _ & _ & _ & SB). apply SB in B.
      apply (H2 (rho x)); [|exact B]. exact (older_name cfg snap fuel S P d s _ _ AM NM Fx (built_in_lt _ _ _ B)).
  Qed.
  Lemma combine_apart l r ca t cb : c_snap ca = snap -> apart cfg snap (c_delta ca) l r -> c_combine cfg fuel l r ca = Ok (Val t, cb) -> t_concept t = None.
  Proof.
    intros Es H E. unfold c_combine, with_search in E. rewrite Es in E.
    destruct (combine_ast cfg snap (ops_of cfg fuel ca) (new_env (c_delta ca) (c_bound ca)) l r (start_state (c_cache ca) (c_tick ca))) as [[y s]| | |] eqn:X; try discriminate.
    injection E as -> _. exact (combined_apart cfg snap (c_delta ca) _ (new_env (c_delta ca) (c_bound ca)) l r _ t s eq_refl X H).
  Qed.

  (** ** Reading *)
  Notation kf := (kind_of_symbol cfg fuel c).
  Lemma known_here w x : found_under snap w x -> here c w (Committed x).
  Proof. intros H s [_ A]. rewrite Ed in A. injection A as <-. exact H. Qed.
  Lemma reads_named p : forall ca t cb, reads cfg fuel kf p ca t cb -> sound ca -> keeps c ca ->
    sound cb /\ keeps ca cb /\ named cb t /\ okt (below n0) t.
  Proof.
    induction p as [w|a IHa b IHb]; intros ca t cb.
    - intros (k & n & K & <- & E) SD KP. pose proof (kind_truthful cfg snap F fuel c _ _ eq_refl Ed K) as T.
      assert (G : okn (below n0) (from_concept_kind k w)).
      { destruct k as [id cc|id| |]; cbn; try exact I; destruct T as (_ & x & -> & Fx & _); exact (found_lt _ _ _ S Fx). }
      destruct (read_nested cfg snap fuel F S P D HB (from_concept_kind k w) ca t cb SD G) as (S1 & K1 & N1); [|exact E|].
      + intros k' w' x J. destruct J as [J|[]]. apply KP.
        destruct k as [id cc|id| |]; try discriminate J; destruct T as (_ & y & -> & Fx & _); injection J as _ <- <-; exact (known_here _ _ Fx).
      + pose proof (cok_nested cfg F (below n0) (fun u => I) snap (sane_ids _ S) fuel _ G ca _ cb (proj1 SD) E) as (_ & _ & Gt). auto.
    - intros (ta & c1 & tb & c2 & Ra & Rb & E) SD KP. destruct (IHa _ _ _ Ra SD KP) as (S1 & K1 & N1 & G1).
      destruct (IHb _ _ _ Rb S1 (keeps_trans _ _ _ _ _ _ KP K1)) as (S2 & K2 & N2 & G2).
      destruct (pair_names cfg snap fuel D ta tb c2 t cb) as [K3 N3]; [|exact E|].
      { apply all_named_cons; [exact (named_keeps _ _ _ _ _ _ K2 N1)|]. apply all_named_cons; [exact N2|intros ? ? []]. }
      pose proof (cok_pair cfg F (below n0) (fun u => I) snap (sane_ids _ S) fuel ta tb G1 G2) as CK.
      destruct (CK c2 _ cb (proj1 S2) E) as (_ & _ & Gt).
      split; [exact (sound_cok cfg snap fuel _ _ _ _ CK S2 E)|]. split; [eapply keeps_trans; [exact K1|eapply keeps_trans; eassumption]|auto].
  Qed.
  Lemma reads_logs p : forall ca t cb, reads cfg fuel kf p ca t cb -> exists l, pending cb = pending ca ++ l /\ Forall (fun p => naming (snd p)) l.
  Proof.
    induction p as [w|a IHa b IHb]; intros ca t cb.
    - intros (k & n & K & <- & E). exact (proj2 (logs_nested cfg fuel _ _ _ _ E)).
    - intros (ta & c1 & tb & c2 & Ra & Rb & E). destruct (IHa _ _ _ Ra) as (l1 & E1 & N1). destruct (IHb _ _ _ Rb) as (l2 & E2 & N2).
      destruct (logs_pair cfg fuel _ _ _ _ _ E) as (_ & l3 & E3 & N3). exists (l1 ++ l2 ++ l3).
      rewrite E3, E2, E1, <- !app_assoc, !Forall_app. auto.
  Qed.
  Lemma earlier ca cb l s : sound ca -> pending cb = pending ca ++ l -> amounts_to (c_delta cb) s -> exists s', amounts_to (c_delta ca) s'.
  Proof.
    intros SD E [_ A]. change (d_order (overlay (c_delta cb))) with (pending cb) in A. rewrite E, apply_directs_app in A.
    apply obind_ok in A. destruct A as (s' & A & _). exists s'. split; [apply SD|exact A].
  Qed.
  Lemma said_apart a b l r ca s : unjoined snap (Both a b) -> said snap a l -> said snap b r -> named ca l -> named ca r ->
    amounts_to (c_delta ca) s -> Forall (fun p => naming (snd p)) (pending ca) -> apart cfg snap (c_delta ca) l r.
  Proof.
    intros (_ & _ & U) Sa Sb Nl Nr AM NM lc rc m El Er RM.
    destruct a as [v|]; [|destruct Sa as (? & ? & [Q _] & _); congruence]. destruct b as [w|]; [|destruct Sb as (? & ? & [Q _] & _); congruence].
    destruct Sa as (x & kx & -> & _), Sb as (y & ky & -> & _). injection El as <-. injection Er as <-.
    destruct (Nl v (Some x) (or_introl eq_refl)) as (x' & [= <-] & Hx). destruct (Nr w (Some y) (or_introl eq_refl)) as (y' & [= <-] & Hy).
    exact (words_apart _ s v w x y m AM NM (proj1 U) (proj2 U) (Hx _ AM) (Hy _ AM) RM).
  Qed.
  Lemma word_stands k w ca t cb : kf w = Ok k -> ast_from_nested_syntax cfg fuel (from_concept_kind k w) ca = Ok (Val t, cb) ->
    ~ underscored w -> named cb t -> okt (below n0) t -> Forall (fun p => naming (snd p)) (pending cb) -> (exists s, amounts_to (c_delta cb) s) ->
    exists x kd, t = TLeaf w (Some x) kd /\ stands snap w x.
  Proof.
    intros K E NU N G NM (s & AM). pose proof (kind_truthful cfg snap F fuel c _ _ eq_refl Ed K) as T.
    unfold from_concept_kind in E. cbn [ast_from_nested_syntax] in E. destruct (leaf_read _ _ _ _ _ _ _ _ E) as (x & -> & O).
    exists x. eexists. split; [reflexivity|].
    assert (KN : forall n, x = Committed n -> found_under snap w n -> stands snap w x).
    { intros n -> Fn. split; [eauto|]. intros No. destruct (No n Fn). }
    destruct k as [id cc|id| |].
    - destruct T as (_ & y & -> & Fx & _). exact (KN y (O _ eq_refl) Fx).
    - destruct T as (_ & y & -> & Fx & _). exact (KN y (O _ eq_refl) Fx).
    - split; [intros n Fn; destruct (proj2 T n Fn)|]. intros _. destruct x as [m|u]; [|eauto]. exfalso.
      destruct (N w (Some (Committed m)) (or_introl eq_refl)) as (x' & [= <-] & Hx). specialize (Hx s AM).
      apply (proj2 T m). apply (older_name cfg snap fuel S P _ s w m AM NM Hx). exact G.
    - destruct (NU T).
  Qed.
  Lemma reads_said p : forall ca t cb, unjoined snap p -> reads cfg fuel kf p ca t cb -> sound ca -> keeps c ca ->
    Forall (fun p => naming (snd p)) (pending ca) -> (exists s, amounts_to (c_delta cb) s) -> said snap p t.
  Proof.
    induction p as [w|a IHa b IHb]; intros ca t cb U RE SD KP NM AM.
    - destruct (reads_named _ _ _ _ RE SD KP) as (_ & _ & N & G). destruct (reads_logs _ _ _ _ RE) as (l & El & Nl).
      destruct RE as (k & n & K & <- & E). apply (word_stands k w ca t cb K E); auto; [apply U|]. rewrite El, Forall_app. auto.
    - pose proof RE as (ta & c1 & tb & c2 & Ra & Rb & E).
      destruct (reads_named _ _ _ _ Ra SD KP) as (S1 & K1 & N1 & _). pose proof (keeps_trans _ _ _ _ _ _ KP K1) as KP1.
      destruct (reads_named _ _ _ _ Rb S1 KP1) as (S2 & K2 & N2 & _).
      destruct (reads_logs _ _ _ _ Ra) as (l1 & E1 & Q1). destruct (reads_logs _ _ _ _ Rb) as (l2 & E2 & Q2).
      destruct (logs_pair cfg fuel _ _ _ _ _ E) as (_ & l3 & E3 & Q3). destruct AM as (s & AM).
      destruct (earlier _ _ _ _ S2 E3 AM) as (s2 & A2). destruct (earlier _ _ _ _ S1 E2 A2) as (s1 & A1).
      assert (M1 : Forall (fun p => naming (snd p)) (pending c1)) by (rewrite E1, Forall_app; auto).
      assert (M2 : Forall (fun p => naming (snd p)) (pending c2)) by (rewrite E2, Forall_app; auto).
      pose proof (IHa _ _ _ (proj1 U) Ra SD KP NM (ex_intro _ _ A1)) as Sa. pose proof (IHb _ _ _ (proj1 (proj2 U)) Rb S1 KP1 M1 (ex_intro _ _ A2)) as Sb.
      exists ta, tb. split; [|auto]. split; [|exact (pair_parts _ _ D _ _ _ _ _ E)].
      pose proof (said_apart a b ta tb c2 s2 U Sa Sb (named_keeps _ _ _ _ _ _ K2 N1) N2 A2 M2) as AP.
      unfold ast_from_pair in E. apply bind_back in E. destruct E as ([ty|e] & c3 & X1 & E); [|destruct E; discriminate].
      apply (unmoving_type cfg) in X1. apply bind_back in E. destruct E as ([y|e] & c4 & X2 & E); [|destruct E; discriminate].
      assert (X : c_snap c4 = c_snap c2 /\ c_delta c4 = c_delta c2).
      { destruct X1 as [Y1 Y2]. destruct (_ && _)%bool; injection X2 as _ <-; cbn; auto. }
      apply (combine_apart ta tb c4 t cb); [rewrite (proj1 X); exact (proj1 (proj1 S2))|rewrite (proj2 X); exact AP|exact E].
  Qed.

  (** ** Expanding *)
  Lemma label_stays d s x w : amounts_to d s -> Forall (fun p => naming (snd p)) (d_order (overlay d)) ->
    lt x n0 -> carries_label snap x w -> carries_label s x w.
  Proof.
    intros AM NM Lx (lab & comp & str & B & C & RR & T).
    destruct (amounts_linked cfg snap fuel S P _ _ AM) as (_ & _ & EX & _ & _ & SB).
    destruct (composed_range snap S _ _ _ C) as (L1 & L2 & _). exists lab, comp, str. split; [apply SB, B|].
    split.
    { apply composed_at. rewrite (proj1 (old_word cfg snap fuel S P d s _ AM NM L1)). apply composed_at, C. }
    split; [|apply EX, T]. apply (chain_forth snap s S); [|exact RR]. intros y _ Ly m.
    rewrite !reduces_at, (proj1 (proj2 (old_word cfg snap fuel S P d s _ AM NM Ly))). reflexivity.
  Qed.
  Lemma word_plainly d s w x : amounts_to d s -> Forall (fun p => naming (snd p)) (d_order (overlay d)) ->
    ~ underscored w -> labels snap w -> found_under s w (rho x) -> plainly cfg snap fuel d x.
  Proof.
    intros AM NM NU LB FX. destruct (pending_facts d s AM NM) as (LK & LA & TR). split.
    - destruct x as [n|u]; [exact I|]. apply (found_lt s w _ (lk_sane _ _ _ _ _ LK)) in FX. rewrite (lk_size _ _ _ _ _ LK) in FX. cbn in FX |- *. lia.
    - exists s. split; [exact AM|]. split; [exact LA|]. split.
      + apply (word_elementary cfg fuel c R d s w _ AM NM FX). exact (labels_simple _ _ LB).
      + exists w. split; [|exact (unvaried w NU)]. destruct (Nat.lt_ge_cases (rho x) n0) as [L|L].
        * apply (label_stays d s _ w AM NM L). apply LB. exact (older_name cfg snap fuel S P d s w _ AM NM FX L).
        * exact (new_label cfg snap fuel S P d s w _ AM NM TR FX L).
  Qed.
  Lemma firm_faithful c0 s0 : amounts_to (c_delta c0) s0 -> Forall (fun p => naming (snd p)) (pending c0) ->
    forall p u t, unjoined snap p -> said snap p u -> named c0 u -> firm cfg snap fuel (c_delta c0) u t ->
    faithful snap p t /\ match p with Word w => exists x v k, t = TLeaf v (Some x) k /\ here c0 w x | Both _ _ => t_concept t = None end.
  Proof.
    intros AM NM. induction p as [w|a IHa b IHb]; intros u t U SA N FI.
    - destruct SA as (x & k & -> & ST). destruct (N w (Some x) (or_introl eq_refl)) as (x' & [= <-] & H).
      destruct U as (_ & NU & LB). destruct (FI (word_plainly _ _ w x AM NM NU LB (H _ AM))) as (v & k' & -> & K').
      split; [exists v, x, k'; auto|eauto].
    - destruct SA as (l & r & [Pc Pe] & Sl & Sr). destruct u as [|v o l0 r0 fv bv]; [discriminate|]. cbn in Pc, Pe. subst o. injection Pe as -> ->.
      destruct FI as (l' & r' & X & AP & Fl & Fr).
      destruct (IHa l l' (proj1 U) Sl) as [Ql Rl]; [|exact Fl|]. { intros y o J. apply N. cbn. apply in_or_app. auto. }
      destruct (IHb r r' (proj1 (proj2 U)) Sr) as [Qr Rr]; [|exact Fr|]. { intros y o J. apply N. cbn. apply in_or_app. auto. }
      assert (C : t_concept t = None).
      { apply AP. intros lc rc m El Er RM. destruct a as [a|]; [|congruence]. destruct b as [b|]; [|congruence].
        destruct Rl as (x & vx & kx & -> & Hx), Rr as (y & vy & ky & -> & Hy). injection El as <-. injection Er as <-.
        destruct U as (_ & _ & U1 & U2). exact (words_apart _ s0 a b x y m AM NM U1 U2 (Hx _ AM) (Hy _ AM) RM). }
      split; [|exact C]. split; [exact C|]. exists l', r'. auto.
  Qed.
  Lemma faithful_created p : forall t2 c3 t c1, faithful snap p t2 -> create_variable_concepts t2 c3 = Ok (Val t, c1) -> t = t2 /\ c1 = c3.
  Proof.
    induction p as [w|a IHa b IHb]; intros t2 c3 t c1 H E.
    - destruct H as (v & x & k & -> & K & _). cbn [create_variable_concepts] in E. destruct k; try congruence; injection E as <- <-; auto.
    - destruct H as (_ & l & r & X & Hl & Hr). destruct t2 as [|v o l0 r0 fv bv]; [discriminate|]. injection X as -> ->.
      cbn [create_variable_concepts] in E. apply bind_back in E. destruct E as ([l'|e] & c4 & El & E); [|destruct E; discriminate].
      apply bind_back in E. destruct E as ([r'|e] & c5 & Er & E); [|destruct E; discriminate]. injection E as <- <-.
      destruct (IHa _ _ _ _ Hl El) as [-> ->]. destruct (IHb _ _ _ _ Hr Er) as [-> ->]. auto.
  Qed.

  (** ** The command *)
  Theorem uttered p answer c' : unjoined snap p -> execute cfg fuel (spelled p) c = Ok (answer, c') -> (forall e, answer <> error_text e) ->
    exists u c0 t c1, ast_from_expression cfg fuel (spelled p) c = Ok (Val u, c0) /\ said snap p u /\
      read_tree cfg fuel (spelled p) c = Ok (Val t, c1) /\ faithful snap p t /\ named c1 u.
  Proof.
    intros U E NE. destruct (execute_run cfg fuel _ c answer c' F RD E) as (z & c2 & E1 & _ & Ez & ST & G & L & A & _).
    destruct z as [z|e]; [subst z|destruct (NE e Ez)].
    destruct (run_by_tree _ _ _ _ _ _ E1) as ([t|e] & c1 & Rt & Ec); [|destruct Ec; discriminate].
    pose proof Rt as Rt'. unfold read_tree in Rt'. apply bind_back in Rt'. destruct Rt' as ([u|e] & c0 & E0 & Rt'); [|destruct Rt'; discriminate].
    exists u, c0, t, c1. split; [exact E0|].
    destruct (command_words cfg fuel F D _ c answer c' u c0 R E0 E NE) as (t' & c1' & c2' & s2 & Rt2 & Ec2 & SD1 & N1 & SD2 & ST2 & AM2 & _).
    rewrite Rt in Rt2. injection Rt2 as <- <-.
    destruct (expression_names cfg snap fuel F S P D HB (spelled p) c u c0 (start_sound cfg fuel c R) Ed E0) as [SD0 N0].
    destruct (found_stays cfg snap fuel S P _ _ ST2 (proj2 SD1) s2 AM2) as (s1 & _ & AM1 & _).
    apply bind_back in Rt'. destruct Rt' as ([t2|e] & c3 & E3 & Rt'); [|destruct Rt'; discriminate].
    apply obind_ok in Rt'. destruct Rt' as ([[y|] c4] & E4 & Rt'); [|discriminate]. injection Rt' as -> ->.
    destruct (unmoving_search (fun c e => o_expand (ops_of cfg fuel c) e u) _ _ _ E3) as [_ E3d].
    destruct (logs_variables t2 c3 _ c1 E4) as (_ & lv & Elv & _).
    assert (Elv' : pending c1 = pending c0 ++ lv) by (unfold pending in *; rewrite Elv, E3d; reflexivity).
    destruct (earlier _ _ _ _ SD0 Elv' AM1) as (s0 & AM0).
    destruct (logs_expression cfg fuel _ c _ c0 E0) as (_ & l0 & El0 & Hl0).
    assert (NM0 : Forall (fun p => naming (snd p)) (pending c0)).
    { unfold pending in El0 at 2. rewrite Ed in El0. cbn in El0. rewrite El0. exact Hl0. }
    assert (SA : said snap p u).
    { pose proof (spelled_reads cfg fuel p c u c0 (unjoined_proper _ _ U) E0) as RE.
      assert (NMc : Forall (fun p => naming (snd p)) (pending c)) by (unfold pending; rewrite Ed; constructor).
      assert (KP : keeps c c) by (intros w x H; exact H). pose proof (start_sound cfg fuel c R) as SD.
      destruct p as [w|a b]; [exact (reads_said (Word w) _ _ _ U RE SD KP NMc (ex_intro _ _ AM0))|].
      destruct RE as (ta & ca & tb & Ra & Rb & ->).
      destruct (reads_named _ _ _ _ Ra SD KP) as (S1 & K1 & _). destruct (reads_logs _ _ _ _ Ra) as (l1 & X1 & Q1).
      destruct (reads_logs _ _ _ _ Rb) as (l2 & X2 & Q2). destruct (earlier _ _ _ _ S1 X2 AM0) as (sa & Aa).
      assert (M1 : Forall (fun p => naming (snd p)) (pending ca)) by (rewrite X1, Forall_app; auto).
      exists ta, tb. split; [unfold new_pair, branch; destruct (pair_vars ta tb); split; reflexivity|]. split.
      - exact (reads_said a _ _ _ (proj1 U) Ra SD KP NMc (ex_intro _ _ Aa)).
      - exact (reads_said b _ _ _ (proj1 (proj2 U)) Rb S1 K1 M1 (ex_intro _ _ AM0)). }
    split; [exact SA|]. split; [exact Rt|]. split; [|exact N1].
    assert (KC : kinds cfg snap fuel c).
    { split; [reflexivity|]. split; [exact (own_start cfg c Ed (reachable_own _ _ R))|exact (kind_start cfg fuel c Ed (reachable_kinds _ _ RL))]. }
    destruct (ck_expression _ _ _ _ _ _ _ _ _ (kind_run_laws cfg snap fuel F S P CI) (spelled p) c _ c0 KC E0) as [KD _].
    pose proof (c_expand_firm cfg snap fuel u c0 t2 c3 F S P D CI KD E3) as FI.
    destruct (firm_faithful c0 s0 AM0 NM0 p u t2 U SA N0 FI) as [FA _].
    destruct (faithful_created p _ _ _ _ FA E4) as [-> _]. exact FA.
  Qed.

  (** ** Declarations and definitions *)
  Lemma stands_built_in w cc x : names_built_in snap w cc -> stands snap w x -> exists n, x = Committed n /\ built_in snap n cc.
  Proof.
    intros (n & B & H) [K _]. destruct (K n (proj2 (H n) eq_refl)) as (m & -> & Fm). apply H in Fm. subst m. eauto.
  Qed.
  Lemma silence : forall e, ([] : text) <> error_text e.
  Proof. intros e H. exact (error_not_empty e (eq_sym H)). Qed.
  Theorem uttered_declaration tell arrow w1 w2 c' :
    let p := Both (Word tell) (Both (Word w1) (Both (Word arrow) (Word w2))) in
    unjoined snap p -> names_built_in snap tell CLet -> names_built_in snap arrow CReduction ->
    (forall n y, found_under snap w1 n -> ~ lists_reduction_from snap y n) ->
    execute cfg fuel (spelled p) c = Ok ([], c') ->
    exists x y, found_under (c_snap c') w1 x /\ found_under (c_snap c') w2 y /\ reduces (c_snap c') x y /\
      (x < n0 -> found_under snap w1 x)%nat /\ (y < n0 -> found_under snap w2 y)%nat /\ only_reduction_of x snap (c_snap c').
  Proof.
    intros p U NL NA UL E. pose proof U as (_ & (U1 & (_ & U2 & _) & _) & _).
    destruct (uttered p [] c' U E silence) as (u & c0 & t & c1 & E0 & SA & Rt & FA & _).
    destruct FA as (Ct & tl & ta & X1 & (vl & xl & kl & -> & _ & Sl) & _ & a & q & X2 & (va & xa & ka & -> & Ka & Sa) & _ & ar & b & X3 & (vr & xr & kr & -> & _ & Sr) & (vb & xb & kb & -> & Kb & Sb)).
    destruct (stands_built_in _ _ _ NL Sl) as (nl & -> & Bl). destruct (stands_built_in _ _ _ NA Sr) as (nr & -> & Br).
    apply (spoken_declaration cfg fuel F D c R (spelled p) c' u c0 (TLeaf va (Some xa) ka) (TLeaf vb (Some xb) kb) w1 w2 E0).
    - destruct SA as (ul & ut & P1 & _ & t1 & up & P2 & (x1 & k1 & -> & _) & uf & t2 & P3 & _ & (x2 & k2 & -> & _)).
      exists ul, ut, (TLeaf w1 (Some x1) k1), up, uf, (TLeaf w2 (Some x2) k2). unfold is_word. repeat split; eauto; try apply P1; try apply P2; apply P3.
    - exists t, c1, (TLeaf vl (Some (Committed nl)) kl), ta, q, (TLeaf vr (Some (Committed nr)) kr), nl, nr.
      split; [exact Rt|]. split; [exact Ct|]. split; [exact X1|]. split; [exact X2|]. split; [exact X3|]. auto.
    - destruct ka; congruence || reflexivity.
    - destruct kb; congruence || reflexivity.
    - apply labels_simple, U1.
    - apply labels_simple, U2.
    - exact UL.
    - exact E.
  Qed.
  Theorem uttered_definition tell becomes w1 w2 w3 c' :
    let p := Both (Word tell) (Both (Word w1) (Both (Word becomes) (Both (Word w2) (Word w3)))) in
    unjoined snap p -> names_built_in snap tell CLet -> names_built_in snap becomes CDefine ->
    execute cfg fuel (spelled p) c = Ok ([], c') ->
    exists x y z, found_under (c_snap c') w1 x /\ found_under (c_snap c') w2 y /\ found_under (c_snap c') w3 z /\
      composed (c_snap c') x y z /\
      (x < n0 -> found_under snap w1 x)%nat /\ (y < n0 -> found_under snap w2 y)%nat /\ (z < n0 -> found_under snap w3 z)%nat /\
      only_composition_of x snap (c_snap c').
  Proof.
    intros p U NL NA E. pose proof U as (_ & (U1 & (_ & (U2 & U3 & _) & _) & _) & _).
    destruct (uttered p [] c' U E silence) as (u & c0 & t & c1 & E0 & SA & Rt & FA & _).
    destruct FA as (Ct & tl & ta & X1 & (vl & xl & kl & -> & _ & Sl) & _ & a & q & X2 & (va & xa & ka & -> & Ka & Sa) & _ & ar & b & X3 & (vr & xr & kr & -> & _ & Sr) & Cb & l & r & X4 & (vb & xb & kb & -> & Kb & Sb) & (vc & xc & kc & -> & Kc & Sc)).
    destruct (stands_built_in _ _ _ NL Sl) as (nl & -> & Bl). destruct (stands_built_in _ _ _ NA Sr) as (nr & -> & Br).
    apply (spoken_definition cfg fuel F D c R (spelled p) c' u c0 (TLeaf va (Some xa) ka) b (TLeaf vb (Some xb) kb) (TLeaf vc (Some xc) kc) w1 w2 w3 E0).
    - destruct SA as (ul & ut & P1 & _ & t1 & up & P2 & (x1 & k1 & -> & _) & uf & uq & P3 & _ & t2 & t3 & P4 & (x2 & k2 & -> & _) & (x3 & k3 & -> & _)).
      exists ul, ut, (TLeaf w1 (Some x1) k1), up, uf, uq, (TLeaf w2 (Some x2) k2), (TLeaf w3 (Some x3) k3). unfold is_word.
      repeat split; eauto; try apply P1; try apply P2; try apply P3; apply P4.
    - exists t, c1, (TLeaf vl (Some (Committed nl)) kl), ta, q, (TLeaf vr (Some (Committed nr)) kr), nl, nr.
      split; [exact Rt|]. split; [exact Ct|]. split; [exact X1|]. split; [exact X2|]. split; [exact X3|]. auto.
    - exact X4.
    - destruct ka; congruence || reflexivity.
    - destruct kb; congruence || reflexivity.
    - destruct kc; congruence || reflexivity.
    - apply labels_simple, U1.
    - apply labels_simple, U2.
    - apply labels_simple, U3.
    - exact E.
  Qed.
End Uttered.
