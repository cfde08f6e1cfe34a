(** What a symbol is answered with. *)
From Verif Require Import Start Snapshot Search Context LexerSpec LexerFacts NesterSpec StoreSpec StoreInv NameSpec Names StoreFacts
  MapFacts AstSpec AstFacts RangeFacts History Steps SearchKeeps SearchCaches Questions Existence Wide Earned Repeat CacheLife
  Quiet Displays Matches Implications Asking Shapes Unruled Answers Clean.
From Coq Require Import List PeanoNat Bool.
Import ListNotations.
Local Open Scope zia_scope.

(** ** Specification *)
(** The text [w] is one word, not a variable, and leads to the concept [k] and no other. *)
Definition means (s : snapshot) (w : text) (k : nat) : Prop :=
  word w /\ ~ underscored w /\ found_under s w k /\ forall x, found_under s w x -> x = k.

(** ** Reading a word *)
Lemma clean_lex kf : (forall t, clean (kf t)) -> forall s, clean (lex kf s).
Proof.
  intros K s. unfold lex. apply clean_bind; [|intros; apply clean_Ok]. generalize (@nil lexeme, @nil nat).
  induction s as [|x s IH]; intros st; cbn [lex_loop]; [apply clean_Ok|]. apply clean_bind; [|exact IH].
  unfold lex_step. cl; apply K.
Qed.
Lemma clean_labellee cfg snap d : forall n l, clean (labellee_loop cfg snap d n l).
Proof.
  induction n as [|n IH]; intros [|x l]; cbn [labellee_loop]; try apply clean_Ok; [intros e E; discriminate E|].
  apply clean_bind; [apply clean_read|]. intros m. apply clean_bind.
  - destruct (m_composition m) as [[r y]|]; [|apply clean_Ok]. apply clean_bind; [apply clean_type|]. intros. apply clean_Ok.
  - intros [y|]; [apply clean_Ok|apply IH].
Qed.
Lemma clean_kind cfg fuel c t : c_delta c = delta_default -> clean (kind_of_symbol cfg fuel c t).
Proof.
  intros D. unfold kind_of_symbol. destruct (is_variable_symbol t); [apply clean_Ok|]. rewrite D. apply clean_bind.
  - unfold concept_from_label. rewrite string_lookup. cbn [obind]. destruct (option_map _ _); [|apply clean_Ok].
    unfold get_labellee. apply clean_bind; [apply clean_read|]. intros m. apply clean_labellee.
  - intros [id|]; [|apply clean_Ok]. apply clean_bind; [apply clean_read|]. intros m. cl.
Qed.
Lemma word_read cfg fuel w k c r c1 : fair cfg -> c_delta c = delta_default -> means (c_snap c) w k ->
  ast_from_expression cfg fuel w c = Ok (r, c1) ->
  exists kd, r = Val (TLeaf w (Some (Committed k)) kd) /\ c1 = c.
Proof.
  intros F D (W & Nu & Fu & Un) E. unfold ast_from_expression, c_lex, c_nest in E.
  apply bind_back in E. destruct E as (ls & c2 & E1 & E).
  apply lift_clean in E1; [|apply clean_lex; intros t; apply clean_kind, D].
  destruct E1 as (-> & ls' & -> & L).
  assert (W1 : forall x, In x [w] -> word x) by (intros x [<-|[]]; exact W).
  pose proof (tokenisation_unique_lemma _ _ _ (lex_tokenisation_lemma _ _ _ L) (cut_tokenisation [w] W1)) as V.
  cbn [cut spaced] in V. destruct ls' as [|a [|b ls']]; try discriminate V. cbn [map] in V. injection V as V1 V2.
  destruct (lx_cat a) as [kd| | |] eqn:A; try discriminate V1.
  pose proof (lex_categories_lemma _ _ _ a kd L (or_introl eq_refl) A) as Kd. rewrite V2 in Kd.
  pose proof (kind_truthful cfg (c_snap c) F fuel c _ _ eq_refl D Kd) as T.
  apply bind_back in E. destruct E as (n & c2 & E1 & E).
  assert (n = Val (from_concept_kind kd w) /\ c2 = c) as [-> ->].
  { unfold clift, nest in E1. cbn [nest_loop] in E1. unfold nest_step in E1. rewrite A, V2 in E1. cbn in E1.
    injection E1 as <- <-. auto. }
  apply bind_back in E. destruct E as (ts & c2 & E2 & E).
  assert (exists lk, ts = Val [TLeaf w (Some (Committed k)) lk] /\ c2 = c) as (lk & -> & ->).
  { unfold from_concept_kind in E2. cbn [syntax_list_for_nested_syntax] in E2. destruct kd as [id cc|id| |]; cbn [truthful] in T.
    - destruct T as (_ & x & -> & Fx & _). rewrite (Un _ Fx) in E2. unfold ast_from_syntax_leaf in E2.
      unfold cbind, cret in E2. cbn in E2. injection E2 as <- <-. eauto.
    - destruct T as (_ & x & -> & Fx & _). rewrite (Un _ Fx) in E2. unfold ast_from_syntax_leaf in E2.
      unfold cbind, cret in E2. cbn in E2. injection E2 as <- <-. eauto.
    - exfalso. exact (proj2 T _ Fu).
    - exfalso. exact (Nu T). }
  unfold parse_list in E. cbn in E. injection E as <- <-. eauto.
Qed.

Section Store.
  Variables (cfg : config) (snap : snapshot) (fuel : nat).
  Hypothesis F : fair cfg.
  Hypothesis N : self_numbered snap.
  Hypothesis LC : compositions_are_listed snap.
  Hypothesis LR : listed_compositions_are_real snap.
  Hypothesis UL : forall a b, built_in snap a CLabel -> built_in snap b CLabel -> a = b.
  Variable lab : nat.
  Hypothesis CI : concrete_concept_id cfg snap delta_default CLabel = Ok (Some (Committed lab)).
  Hypothesis BL : built_in snap lab CLabel.
  Hypothesis BI : forall cc c, concrete_concept_id cfg snap delta_default cc = Ok (Some c) -> is_built_in snap c cc.
  Hypothesis ON : operators_named snap.
  Notation leaf_of := (leaf_of cfg snap fuel).
  Notation ends := (ends snap).
  Notation settled_symbol := (settled_symbol snap).
  Variable extra : text -> rresult -> Prop.
  Notation good := (good cfg snap fuel extra).
  Notation own := (new_env delta_default []).

  Lemma ends_settled k z v : ends k z v -> settled_symbol z v /\ forall q, ~ reduces snap z q.
  Proof.
    induction 1 as [z w Pz Nr|z cc w B S|k w q z v Pz Re En IH]; [split; [apply Pz|exact Nr]| |exact IH].
    split; [exact S|]. intros q (c & m & L & Sp). destruct B as (c' & L' & Sp'). congruence.
  Qed.
  Lemma ends_end k z v : ends k z v -> ends z z v.
  Proof. induction 1 as [z w Pz Nr|z cc w B S|k w q z v Pz Re En IH]; [now constructor|econstructor; eassumption|exact IH]. Qed.
  Lemma settled_leaf z v t : settled_symbol z v -> leaf_of z t ->
    exists kd, t = TLeaf v (Some (Committed z)) kd /\ kd <> LVariable.
  Proof.
    intros (El & G & V & _) Lf. destruct (named_leaf cfg snap fuel LC LR UL lab CI BL z v t Lf G) as (kd & -> & Kd).
    - intros x (c & L & S). destruct El as [(cc & c' & L' & S')|(c' & rd & L' & S')]; congruence.
    - exists kd. auto.
  Qed.
  Lemma elementary_string k m : elementary snap k -> read_concept cfg snap delta_default (Committed k) = Ok m ->
    m_string m = None /\ m_composition m = None.
  Proof.
    intros El R. apply (wide_back cfg snap _ (WidensSame _)) in R. destruct R as (o & L & ->).
    cbn. unfold get_string, get_composition.
    destruct El as [(cc & c & L' & S)|(c & red & L' & S)]; rewrite L in L'; injection L' as <-; rewrite S; auto.
  Qed.

  (** A context in which nothing but symbols has been asked for since the last change. *)
  Definition asked (c : ctx) : Prop :=
    c_snap c = snap /\ c_delta c = delta_default /\ c_bound c = [] /\ good (start_state (c_cache c) (c_tick c)).
  Lemma good_final s tick : good s -> good (start_state (final_cache s) tick).
  Proof.
    intros ((H1 & H2 & H3) & So & Fi). split; [|split].
    - split; [|split; [exact H2|discriminate]]. intros h n t X. apply (H1 0). destruct h as [|[|h]]; cbn in X; try destruct X.
      destruct (s_syn s); exact X.
    - intros k z v x r En X. apply (So k z v x r En). cbn in X. destruct (s_red s); exact X.
    - intros x r X. apply (Fi x r). cbn in X. destruct (s_red s); exact X.
  Qed.
  Lemma good_empty tick : good (start_state empty_cache tick).
  Proof.
    split; [split; [|split; [|discriminate]]|split].
    - intros [|[|h]] n t [].
    - intros k w r [].
    - intros k z v x r _ [].
    - intros x r [].
  Qed.
  Lemma asked_search {A} (f : env -> SM A) (Post : A -> Prop) c r c' : asked c -> sclean (f own) ->
    (forall s a s', good s -> f own s = Ok (a, s') -> good s' /\ Post a) ->
    with_search f c = Ok (r, c') -> asked c' /\ exists a, r = Val a /\ Post a.
  Proof.
    intros (H1 & H2 & H3 & H4) Cl K E. unfold with_search in E. rewrite H2, H3 in E.
    destruct (f own (start_state (c_cache c) (c_tick c))) as [[a s]|e|x|] eqn:X; try discriminate.
    - injection E as <- <-. destruct (K _ _ _ H4 X) as [G P]. split; [|eauto].
      split; [exact H1|]. split; [reflexivity|]. split; [reflexivity|]. apply good_final, G.
    - exfalso. exact (Cl _ _ X).
  Qed.
  Lemma own_expand n k s w kd t s' : elementary snap k -> good s ->
    o_expand (search cfg snap fuel n) own (TLeaf w (Some (Committed k)) kd) s = Ok (t, s') -> good s' /\ leaf_of k t.
  Proof.
    intros El (Q & So & Fi) E. destruct n as [|n]; [discriminate|]. cbn [search step o_expand] in E. unfold expand in E.
    cbn [t_concept] in E. apply sb in E. destruct E as (comp & s1 & E1 & E). unfold composition_of_concept, smap in E1.
    apply sb in E1. destruct E1 as (m & s2 & R & [= <- <-]). apply read_ok in R. destruct R as [R ->]. unfold known in R.
    cbn [new_env e_delta] in R. rewrite (proj2 (elementary_string _ _ El R)) in E.
    destruct (own_tree cfg snap fuel F N LR n k s t s' El Q E) as (Lf & Q' & U). split; [|exact Lf].
    split; [exact Q'|]. unfold untouched in U.
    split; [intros k' z v x r En X; rewrite U in X; exact (So _ _ _ _ _ En X)|intros x r X; rewrite U in X; exact (Fi _ _ X)].
  Qed.
  Lemma own_inferred n k w t s r s' : settled_symbol k w -> leaf_of k t -> good s ->
    find_examples_of_inferred_reduction cfg snap fuel (search cfg snap fuel n) own t s = Ok (r, s') -> good s' /\ r = None.
  Proof.
    intros St Lf (Q & So & Fi) E.
    destruct (infers_nothing cfg snap fuel F N LC LR UL lab CI BL BI ON _ _ _ _ _
      (quiet_laws cfg snap fuel F N LC LR UL lab CI BL BI ON)) with (n := n) (e := own) (k := k) (w := w) (t := t) (s := s) (r := r) (s' := s')
      as (-> & H2 & U2); try assumption.
    - intros q X. exact (proj1 X).
    - intros e X. exact (proj1 X).
    - apply own_simple.
    - intros h d q e' q' Hh Wd Hq Eq. exact (own_spawn cfg snap fuel _ _ _ _ _ Hh Wd Hq Eq).
    - intros c q u q' Bc Hq Eq. exact (proj2 (own_tree cfg snap fuel F N LR _ _ _ _ _ (or_introl (ex_intro _ _ Bc)) Hq Eq)).
    - split; [|reflexivity]. split; [exact H2|]. unfold untouched in U2.
      split; [intros k' z v x q En X; rewrite U2 in X; exact (So _ _ _ _ _ En X)|intros x q X; rewrite U2 in X; exact (Fi _ _ X)].
  Qed.

  Lemma symbol_call n : forall k z v t c r c', ends k z v -> leaf_of k t -> asked c ->
    fst (calls cfg fuel n) t c = Ok (r, c') -> asked c' /\ r = Val v.
  Proof.
    induction n as [|n IH]; intros k z v t c r c' En Lf H E; [discriminate|]. cbn [calls fst] in E. unfold call_step in E.
    pose proof (search_clean cfg snap fuel fuel) as Cl.
    destruct (leaf_is _ _ _ N _ _ Lf) as (x & kk & ->). cbn [t_concept t_exp] in E.
    apply bind_back in E. destruct E as (str & c1 & E1 & E).
    apply bind_back in E1. destruct E1 as (m & c2 & E1 & E2). unfold c_read in E1.
    apply lift_clean in E1; [|apply clean_read]. destruct E1 as (-> & m' & -> & R). injection E2 as <- <-.
    assert (H' := H). destruct H' as (S & D & _). rewrite S, D in R.
    rewrite (proj1 (elementary_string _ _ (ends_elementary _ _ _ _ En) R)) in E. clear R m'.
    unfold on_irreducible in E. apply bind_back in E. destruct E as (y & c1 & E1 & E).
    apply catch_back in E1. destruct E1 as (z1 & -> & E1). unfold try_reducing_then_call in E1.
    apply bind_back in E1. destruct E1 as (nf & c2 & E2 & E1). unfold c_normal_form in E2.
    apply (asked_search _ (leaf_of z)) in E2; [|exact H| |].
    2:{ unfold ops_of. rewrite S. apply sclean_smap, (oc_nf _ Cl). }
    2:{ intros s a s' G X. unfold ops_of in X. rewrite S in X. unfold smap in X. apply sb in X.
        destruct X as ([a' why] & s1 & X & [= <- <-]). cbn [fst].
        exact (own_normal_form cfg snap fuel F N LC LR UL lab CI BL BI ON extra fuel _ _ _ _ _ _ _ _ _ En Lf G X). }
    destruct E2 as (H2 & nf' & -> & Lz). destruct (ends_settled _ _ _ En) as [St Nr].
    destruct (key_eqb_spec (t_key nf') (t_key (TLeaf x (Some (Committed k)) kk))) as [Ke|Kn].
    - assert (z = k) as ->.
      { destruct (leaf_is _ _ _ N _ _ Lz) as (x' & kk' & ->). unfold t_key in Ke. cbn in Ke. congruence. }
      apply bind_back in E1. destruct E1 as (inf & c3 & E3 & E1). unfold c_inferred in E3.
      assert (H2' := H2). destruct H2' as (S2 & _).
      apply (asked_search _ (fun r => r = None)) in E3; [|exact H2| |].
      2:{ unfold ops_of. rewrite S2. apply inferred_clean, Cl. }
      2:{ intros s a s' G X. unfold ops_of in X. rewrite S2 in X. exact (own_inferred _ _ _ _ _ _ _ St Lf G X). }
      destruct E3 as (H3 & a & -> & ->). injection E1 as <- <-. injection E as <- <-. split; [exact H3|].
      destruct (settled_leaf _ _ _ St Lf) as (kd & [= -> ->] & _). reflexivity.
    - unfold with_pin in E1. apply obind_ok in E1. destruct E1 as ([r1 c3] & E3 & [= <- <-]).
      apply (IH _ _ _ _ _ _ _ (ends_end _ _ _ En) Lz) in E3; [|exact H2]. destruct E3 as [H3 ->].
      injection E as <- <-. split; [exact H3|reflexivity].
  Qed.

  Lemma symbol_run k z v w c r c' : ends k z v -> means snap w k -> asked c ->
    run_command cfg fuel w c = Ok (r, c') -> asked c' /\ r = Val v.
  Proof.
    intros En Me H E. unfold run_command in E. pose proof (search_clean cfg snap fuel fuel) as Cl.
    apply bind_back in E. destruct E as (t & c1 & E1 & E). assert (H' := H). destruct H' as (S & D & _).
    rewrite <- S in Me. destruct (word_read _ _ _ _ _ _ _ F D Me E1) as (kd & -> & ->).
    apply bind_back in E. destruct E as (t & c1 & E2 & E). unfold c_expand in E2.
    apply (asked_search _ (leaf_of k)) in E2; [|exact H| |].
    2:{ unfold ops_of. rewrite S. apply (oc_expand _ Cl). }
    2:{ intros s a s' G X. unfold ops_of in X. rewrite S in X. exact (own_expand _ _ _ _ _ _ _ (ends_elementary _ _ _ _ En) G X). }
    destruct E2 as (H1 & t' & -> & Lf). apply bind_back in E. destruct E as (u & c2 & E2 & E).
    assert (exists x kk, t' = TLeaf x (Some (Committed k)) kk /\ kk <> LVariable) as (x & kk & -> & Kk).
    { destruct En as [z w' Pz _|z cc w' B Sz|k w' q z v Pz _ _];
        [destruct (settled_leaf _ _ _ (proj1 Pz) Lf) as (kk & -> & Kk)
        |destruct (settled_leaf _ _ _ Sz Lf) as (kk & -> & Kk)
        |destruct (settled_leaf _ _ _ (proj1 Pz) Lf) as (kk & -> & Kk)]; eauto. }
    assert (u = Val (TLeaf x (Some (Committed k)) kk) /\ c2 = c1) as [-> ->].
    { cbn [create_variable_concepts] in E2. destruct kk; try (exfalso; congruence); cbn in E2; injection E2 as <- <-; auto. }
    exact (symbol_call _ _ _ _ _ _ _ _ En Lf H1 E).
  Qed.
  Lemma symbol_executed k z v w c a c' : ready c -> ends k z v -> means snap w k -> asked c ->
    execute cfg fuel w c = Ok (a, c') -> a = v /\ c_snap c' = snap /\ c_delta c' = delta_default /\
      good (start_state (c_cache c') (c_tick c')).
  Proof.
    intros Rd En Me H E. destruct (execute_run cfg fuel w c a c' F Rd E) as (x & c1 & E1 & _ & An & _).
    destruct (symbol_run _ _ _ _ _ _ _ En Me H E1) as ((S1 & D1 & _ & G1) & ->). split; [exact An|].
    destruct (execute_quiet _ _ _ _ _ _ _ _ Rd E E1) as (A1 & A2 & A3 & _); [unfold recorded; rewrite D1; reflexivity|].
    destruct H as (S & D & _). rewrite A1, A2, A3. split; [exact S|]. split; [exact D|]. exact G1.
  Qed.
End Store.
