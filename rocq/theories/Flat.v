(** Sequences of words written without brackets: how they are read. *)
From Verif Require Import Lexer LexerSpec LexerFacts Nester NesterSpec NesterFacts CommandFacts Grouping.
From Verif Require Import Snapshot Search Context StoreSpec MapFacts AstFacts StoreFacts RangeFacts Meaning SearchCaches Wide Displays Implications Asking Spelled Replies Keyed.
From Coq Require Import String List PeanoNat Lia Bool Permutation.
Import ListNotations.
Local Open Scope zia_scope.

(** ** Specification *)
(** The words with spaces between them. *)
Fixpoint joined (ws : list text) : text :=
  match ws with [] => [] | [w] => w | w :: ws => w ++ c_space :: joined ws end.

(** Some relation [q precedes y] is about [k]. *)
Definition ranked (s : snapshot) (k : nat) : Prop :=
  exists p comp y, built_in s p CPrecedes /\ composed s comp p y /\ (k = y \/ exists q, composed s q k comp).

(** ** Tokens *)
Fixpoint flat_tokens (ws : list text) : list (char_class * text) :=
  match ws with [] => [] | [w] => [(ClSymbol, w)] | w :: ws => (ClSymbol, w) :: (ClSpace, [c_space]) :: flat_tokens ws end.
Lemma flat_tokens_more w v ws : flat_tokens (w :: v :: ws) = (ClSymbol, w) :: (ClSpace, [c_space]) :: flat_tokens (v :: ws).
Proof. reflexivity. Qed.
Lemma flat_text ws : concat (map snd (flat_tokens ws)) = joined ws.
Proof.
  induction ws as [|w [|v ws] IH]; [reflexivity|apply app_nil_r|]. rewrite flat_tokens_more. cbn [map snd concat]. rewrite IH. reflexivity.
Qed.
Lemma flat_are ws : Forall word ws -> forall k t, In (k, t) (flat_tokens ws) -> is_token k t.
Proof.
  assert (S : forall w, word w -> is_token ClSymbol w).
  { intros w [W C]. split; [exact W|]. split; [exact C|]. intros [|]; discriminate. }
  induction ws as [|w [|v ws] IH]; intros H k t J; [destruct J| |]; inversion H as [|? ? W Ws]; subst.
  - destruct J as [[= <- <-]|[]]. exact (S _ W).
  - rewrite flat_tokens_more in J. destruct J as [[= <- <-]|[[= <- <-]|J]]; [exact (S _ W)| |exact (IH Ws _ _ J)].
    split; [discriminate|]. split; [intros c [<-|[]]; reflexivity|intros [|]; discriminate].
Qed.
Lemma flat_distinct ws : forall q, q <> Some ClSymbol -> distinct q (map fst (flat_tokens ws)).
Proof.
  induction ws as [|w [|v ws] IH]; intros q Q; [exact I|split; [intros X; destruct (Q X)|exact I]|].
  rewrite flat_tokens_more. cbn [map fst distinct]. split; [intros X; destruct (Q X)|]. split; [discriminate|]. apply IH. discriminate.
Qed.
Lemma flat_tokenisation ws : Forall word ws -> tokenisation (joined ws) (flat_tokens ws).
Proof.
  intros H. split; [apply flat_text|]. split; [exact (flat_are _ H)|]. apply (distinct_no_merge _ None), flat_distinct. discriminate.
Qed.
(** The kinds are those the words have. *)
Lemma flat_items kf ws : forall ls, cats_ok kf ls -> view ls = flat_tokens ws ->
  exists ks, Forall2 (fun w k => kf w = Ok k) ws ks /\ toks ls = render (map (fun '(w, k) => Atom k w) (combine ws ks)).
Proof.
  unfold view. induction ws as [|w [|v ws] IH]; intros ls C V.
  - apply map_eq_nil in V. subst ls. exists []. split; [constructor|reflexivity].
  - destruct ls as [|x [|y ls]]; try discriminate V. injection V as V1 V2.
    pose proof (C x) as K. destruct x as [tx cx]. cbn in *. subst tx. destruct cx as [k| | |]; try discriminate V1.
    exists [k]. split; [constructor; [apply K; auto|constructor]|reflexivity].
  - rewrite flat_tokens_more in V. destruct ls as [|x ls]; [discriminate|]. destruct ls as [|y ls]; [discriminate|].
    cbn [map] in V. injection V as V1 V2 V3 V4 V.
    destruct (IH ls) as (ks & K & T); [intros l k J; apply C; right; right; exact J|exact V|].
    pose proof (C x) as Kx. destruct x as [tx cx]. cbn in V1, V2. subst tx. destruct cx as [k| | |]; try discriminate V1.
    exists (k :: ks). split; [constructor; [apply Kx; [left; reflexivity|reflexivity]|exact K]|].
    rewrite toks_cons, toks_cons, T.
    assert (Oy : tok_of y = []) by (unfold tok_of; destruct y as [ty cy]; cbn in *; destruct cy; try discriminate V3; reflexivity).
    rewrite Oy. reflexivity.
Qed.
Lemma atoms_nonempty ws : forall ks, nonempty_groups (map (fun '(w, k) => Atom k w) (combine ws ks)).
Proof. induction ws as [|w ws IH]; intros [|k ks]; cbn; constructor. apply IH. Qed.
Lemma flat_build w v ws k k' ks :
  exists s, build (map (fun '(w, k) => Atom k w) (combine (w :: v :: ws) (k :: k' :: ks))) =
    NParent (map (fun '(w, k) => from_concept_kind k w) (combine (w :: v :: ws) (k :: k' :: ks))) s.
Proof.
  cbn [combine map build]. set (is := map (fun '(w, k) => Atom k w) (combine ws ks)).
  destruct (fold_heads (item_node (Atom k' v) :: map item_node is) (item_node (Atom k w))) as (s & E); [discriminate|].
  exists s. cbn [map]. rewrite E. f_equal. cbn [item_node]. unfold from_concept_kind at 1. cbn [heads app]. f_equal. f_equal.
  unfold is. rewrite map_map. apply map_ext. intros [x y]. reflexivity.
Qed.
(** Each word is read by itself, then the list of them. *)
Lemma flat_read cfg fuel w v ws c r c' : c_delta c = delta_default -> Forall word (w :: v :: ws) ->
  ast_from_expression cfg fuel (joined (w :: v :: ws)) c = Ok (r, c') ->
  exists ks, Forall2 (fun w k => kind_of_symbol cfg fuel c w = Ok k) (w :: v :: ws) ks /\
    cbind (syntax_list_for_nested_syntax cfg fuel (NParent (map (fun '(w, k) => from_concept_kind k w) (combine (w :: v :: ws) ks)) []))
      (parse_list cfg fuel) c = Ok (r, c').
Proof.
  intros D H E. unfold ast_from_expression, c_lex, c_nest in E.
  apply bind_back in E. destruct E as (ls & c2 & E1 & E).
  apply lift_clean in E1; [|apply clean_lex; intros t; apply clean_kind, D].
  destruct E1 as (-> & ls' & -> & L).
  pose proof (tokenisation_unique_lemma _ _ _ (lex_tokenisation_lemma _ _ _ L) (flat_tokenisation _ H)) as V.
  assert (C : cats_ok (kind_of_symbol cfg fuel c) ls') by (intros l k; apply (lex_categories_lemma _ _ _ l k L)).
  destruct (flat_items _ _ _ C V) as (ks & K & T). exists ks. split; [exact K|].
  apply bind_back in E. destruct E as (n & c2 & E2 & E). unfold clift in E2.
  inversion K as [|? k ? ks1 K1 K2]; subst. inversion K2 as [|? k' ? ks2 K3 K4]; subst.
  assert (WB : well_bracketed (toks ls') (map (fun '(w, k) => Atom k w) (combine (w :: v :: ws) (k :: k' :: ks2)))).
  { split; [discriminate|]. split; [apply atoms_nonempty|exact T]. }
  destruct (flat_build w v ws k k' ks2) as (s & Eb).
  rewrite (nest_complete _ _ WB), Eb in E2. injection E2 as <- <-. exact E.
Qed.

Section Flat.
  Variables (cfg : config) (fuel : nat).
  Hypothesis F : fair cfg.
  (** What is kept while the list is put together. *)
  Variable Inv : ctx -> Prop.
  Hypothesis InvShuffle : forall A (l : list A) c r c', Inv c -> c_shuffle cfg l c = Ok (r, c') -> Inv c'.

  (** ** Which words bind weakest *)
  Lemma related_read ids : forall entries acc c r c', related_concepts cfg ids entries acc c = Ok (r, c') ->
    c' = c /\ exists l, r = Val l /\ (NoDup acc -> NoDup l) /\
      forall x, In x l <-> In x acc \/ In x ids /\ exists y comp, In (y, comp) entries /\
        (x = y \/ exists m w, read_concept cfg (c_snap c) (c_delta c) comp = Ok m /\ In (x, w) (m_iter_hand_of cfg m HRight)).
  Proof.
    assert (SM : forall x ids, smem cid_eqb x ids = true <-> In x ids).
    { intros x is. apply smem_In, cid_eqb_spec. }
    assert (FL : forall l acc, let l' := fold_left (fun (acc : list cid) '(l, _) => if smem cid_eqb l ids then sadd cid_eqb l acc else acc) l acc in
      (NoDup acc -> NoDup l') /\ forall x, In x l' <-> In x acc \/ In x ids /\ exists w : cid, In (x, w) l).
    { induction l as [|[y w] l IH]; intros acc; cbn zeta.
      - split; [auto|]. intros x. split; [auto|]. intros [H|(_ & w & [])]; exact H.
      - cbn [fold_left]. destruct (IH (if smem cid_eqb y ids then sadd cid_eqb y acc else acc)) as [IH1 IH2]. split.
        + intros ND. apply IH1. destruct (smem cid_eqb y ids); [apply (sadd_NoDup _ cid_eqb_spec), ND|exact ND].
        + intros x. rewrite IH2. destruct (smem cid_eqb y ids) eqn:M.
          * rewrite (sadd_In _ cid_eqb_spec). apply SM in M. split.
            -- intros [[->|H]|(H & w' & J)]; [right|left|right]; eauto; split; [exact M|exists w; left; reflexivity|exact H|exists w'; right; exact J].
            -- intros [H|(H & w' & [[= -> ->]|J])]; eauto.
          * split; [intros [H|(H & w' & J)]; [auto|right; split; [exact H|exists w'; right; exact J]]|].
            intros [H|(H & w' & [[= -> ->]|J])]; eauto. apply SM in H. congruence. }
    induction entries as [|[y comp] entries IH]; intros acc c r c' E; cbn [related_concepts] in E.
    - injection E as <- <-. split; [reflexivity|]. exists acc. split; [reflexivity|]. split; [auto|]. intros x. split; [auto|].
      intros [H|(_ & y & comp & [] & _)]. exact H.
    - apply bind_back in E. destruct E as (m & c1 & E1 & E). unfold c_read in E1. apply lift_clean in E1; [|apply clean_read].
      destruct E1 as (-> & m' & -> & R). apply IH in E. destruct E as (-> & l & -> & ND & L). split; [reflexivity|]. exists l. split; [reflexivity|].
      destruct (FL (m_iter_hand_of cfg m' HRight) (if smem cid_eqb y ids then sadd cid_eqb y acc else acc)) as [F1 F2]. split.
      + intros H. apply ND, F1. destruct (smem cid_eqb y ids); [apply (sadd_NoDup _ cid_eqb_spec), H|exact H].
      + intros x. rewrite L, F2.
        assert (A : In x (if smem cid_eqb y ids then sadd cid_eqb y acc else acc) <-> In x acc \/ In x ids /\ x = y).
        { destruct (smem cid_eqb y ids) eqn:M.
          - rewrite (sadd_In _ cid_eqb_spec). apply SM in M. split; [intros [->|H]|intros [H|[_ ->]]]; auto.
          - split; [auto|]. intros [H|[H ->]]; [exact H|]. apply SM in H. congruence. }
        rewrite A. split.
        * intros [[[H|[H ->]]|(H & w & J)]|(H & y' & comp' & J & O)]; [left; exact H| | |]; right; (split; [exact H|]).
          -- exists y, comp. split; [left; reflexivity|auto].
          -- exists y, comp. split; [left; reflexivity|]. right. exists m', w. auto.
          -- exists y', comp'. split; [right; exact J|exact O].
        * intros [H|(H & y' & comp' & [[= <- <-]|J] & O)]; [auto| |right; split; [exact H|exists y', comp'; auto]].
          left. destruct O as [->|(m & w & R' & J)]; [auto|]. right. split; [exact H|]. exists w. rewrite R in R'. injection R' as <-. exact J.
  Qed.
  Lemma positions_kept ts cs : forall c r c', Inv c -> positions_of cfg ts cs c = Ok (r, c') -> Inv c'.
  Proof.
    induction cs as [|x cs IH]; intros c r c' H E; cbn [positions_of] in E; [injection E as <- <-; exact H|].
    apply bind_back in E. destruct E as (here & c1 & E1 & E). pose proof (InvShuffle _ _ _ _ _ H E1) as H1.
    apply (shuffle_run _ F) in E1. destruct E1 as (l & -> & _).
    apply bind_back in E. destruct E as (rest & c2 & E2 & E). pose proof (IH _ _ _ H1 E2) as H2.
    apply (positions_run _ F) in E2. destruct E2 as (ps & -> & _). injection E as <- <-. exact H2.
  Qed.
  (** The tokens that some relation of precedence is about. *)
  Definition related (c : ctx) (x : cid) : Prop :=
    exists p m y comp, concrete_concept_id cfg (c_snap c) (c_delta c) CPrecedes = Ok (Some p) /\
      read_concept cfg (c_snap c) (c_delta c) p = Ok m /\ In (y, comp) (m_iter_hand_of cfg m HLeft) /\
      (x = y \/ exists m' w, read_concept cfg (c_snap c) (c_delta c) comp = Ok m' /\ In (x, w) (m_iter_hand_of cfg m' HRight)).
  (** At most one of them is. *)
  Lemma lowest_one ts o c r c' : Inv c -> (forall t x, In t ts -> t_concept t = Some x -> related c x -> o = Some x) ->
    (forall x, o = Some x -> related c x /\ exists t, In t ts /\ t_concept t = Some x) -> (forall t, In t ts -> t_concept t <> None) ->
    lowest_precedence_info cfg fuel ts c = Ok (r, c') ->
    Inv c' /\ exists info, r = Val info /\ ts_syntax info = syntax_at ts (ts_positions info) /\
      forall i, In i (ts_positions info) <-> exists t, nth_error ts i = Some t /\ match o with Some x => t_concept t = Some x | None => True end.
  Proof.
    intros H RO OR CO E. unfold lowest_precedence_info in E.
    apply bind_back in E. destruct E as (p & c1 & E1 & E). unfold c_concrete_id in E1. apply lift_clean in E1; [|apply clean_concrete_id].
    destruct E1 as (-> & p' & -> & CP). apply bind_back in E. destruct E as (q & c1 & E2 & E).
    destruct p' as [p|]; [|discriminate E2]. injection E2 as <- <-.
    apply bind_back in E. destruct E as (m & c1 & E2 & E). unfold c_read in E2. apply lift_clean in E2; [|apply clean_read].
    destruct E2 as (-> & m' & -> & RM). apply bind_back in E. destruct E as (rel & c1 & E3 & E). apply related_read in E3.
    destruct E3 as (-> & l & -> & ND & L). specialize (ND (NoDup_nil _)).
    assert (L' : forall x, In x l <-> o = Some x).
    { intros x. rewrite L. split.
      - intros [[]|(J & y & comp & J' & O)]. apply concept_ids_in in J. destruct J as (t & T & X). apply (RO t x T X).
        exists p, m', y, comp. auto.
      - intros ->. destruct (OR x eq_refl) as ((p2 & m2 & y & comp & CP2 & RM2 & J & O) & t & T & X). right.
        rewrite CP in CP2. injection CP2 as <-. rewrite RM in RM2. injection RM2 as <-.
        split; [apply concept_ids_in; eauto|]. exists y, comp. auto. }
    assert (l = match o with Some x => [x] | None => [] end) as ->.
    { clear - ND L'. destruct o as [x|].
      - destruct l as [|y [|z l]].
        + destruct (proj2 (L' x) eq_refl).
        + pose proof (proj1 (L' y) (or_introl eq_refl)) as [= ->]. reflexivity.
        + pose proof (proj1 (L' y) (or_introl eq_refl)) as [= ->].
          pose proof (proj1 (L' z) (or_intror (or_introl eq_refl))) as [= ->].
          inversion ND as [|? ? Nx _]. destruct Nx. left. reflexivity.
      - destruct l as [|y l]; [reflexivity|]. discriminate (proj1 (L' y) (or_introl eq_refl)). }
    apply bind_back in E. destruct E as (ord & c1 & E4 & E). pose proof (InvShuffle _ _ _ _ _ H E4) as H1.
    apply (shuffle_run _ F) in E4. destruct E4 as (l & -> & PM & _).
    assert (Q : forall ps, (forall i, In i ps <-> exists x, In x (match o with Some x => [x] | None => concept_ids ts end) /\ In i (indices_of ts x)) ->
      forall i, In i ps <-> exists t, nth_error ts i = Some t /\ match o with Some x => t_concept t = Some x | None => True end).
    { intros ps P i. rewrite P. split.
      - intros (x & J & I). apply indices_of_in in I. destruct I as (t & T & X). exists t. split; [exact T|].
        destruct o as [y|]; [destruct J as [<-|[]]; exact X|exact I].
      - intros (t & T & X). destruct o as [y|].
        + exists y. split; [left; reflexivity|]. apply indices_of_in. eauto.
        + pose proof (CO t (nth_error_In _ _ T)) as K. destruct (t_concept t) as [x|] eqn:X'; [|congruence]. exists x. split.
          * apply concept_ids_in. exists t. split; [exact (nth_error_In _ _ T)|exact X'].
          * apply indices_of_in. eauto. }
    destruct o as [x|].
    - apply Permutation_sym, Permutation_length_1_inv in PM. subst l.
      apply bind_back in E. destruct E as (low & c2 & E5 & E). cbn [lowest_concepts] in E5.
      apply bind_back in E5. destruct E5 as (e & c3 & E6 & E5). pose proof (InvShuffle _ _ _ _ _ H1 E6) as H3.
      apply (shuffle_run _ F) in E6. destruct E6 as (l & -> & PM & _). apply Permutation_sym, Permutation_nil in PM. subst l.
      apply bind_back in E5. destruct E5 as (pl & c4 & E6 & E5). injection E6 as <- <-. injection E5 as <- <-.
      cbn [sadd smem existsb app] in E. apply bind_back in E. destruct E as (ord & c2 & E7 & E). pose proof (InvShuffle _ _ _ _ _ H3 E7) as H2.
      apply (shuffle_run _ F) in E7. destruct E7 as (l & -> & PM & _). apply Permutation_sym, Permutation_length_1_inv in PM. subst l.
      apply bind_back in E. destruct E as (ps & c4 & E8 & E). pose proof (positions_kept _ _ _ _ _ H2 E8) as H4.
      apply (positions_run _ F) in E8. destruct E8 as (l & -> & P & _). injection E as <- <-. split; [exact H4|].
      eexists. split; [reflexivity|]. cbn [ts_positions ts_syntax]. split; [reflexivity|]. exact (Q _ P).
    - apply Permutation_sym, Permutation_nil in PM. subst l. cbn [lowest_concepts] in E.
      apply bind_back in E. destruct E as (low & c2 & E5 & E). injection E5 as <- <-.
      apply bind_back in E. destruct E as (ps & c4 & E8 & E). pose proof (positions_kept _ _ _ _ _ H1 E8) as H4.
      apply (positions_run _ F) in E8. destruct E8 as (l & -> & P & _).
      assert (FI : filter (fun c0 : cid => negb (smem cid_eqb c0 [])) (concept_ids ts) = concept_ids ts).
      { clear. induction (concept_ids ts) as [|a l IH]; [reflexivity|]. exact (f_equal (cons a) IH). }
      rewrite FI in P.
      assert (W : indices_without ts = []).
      { destruct (indices_without ts) as [|i is] eqn:IW; [reflexivity|]. exfalso.
        assert (J : In i (indices_without ts)) by (rewrite IW; left; reflexivity). apply indices_without_in in J.
        destruct J as (t & T & X). exact (CO t (nth_error_In _ _ T) X). }
      rewrite W in E. injection E as <- <-. split; [exact H4|]. eexists. split; [reflexivity|]. cbn [ts_positions ts_syntax app].
      split; [reflexivity|]. exact (Q _ P).
  Qed.

  (** ** The words are put together *)
  Variable One : tree -> Prop.
  Hypothesis OneAssoc : forall t c r c', One t -> Inv c -> c_assoc cfg fuel t c = Ok (r, c') -> Inv c' /\ r = Val ARight.
  Lemma common_right ts : Forall One ts -> forall a c r c', a <> Some ALeft -> Inv c -> common_associativity cfg fuel a ts c = Ok (r, c') ->
    Inv c' /\ exists b, r = Val b /\ (a <> None \/ ts <> [] -> b = Some ARight).
  Proof.
    induction 1 as [|t ts O _ IH]; intros a c r c' Na H E; cbn [common_associativity] in E.
    - injection E as <- <-. split; [exact H|]. exists a. split; [reflexivity|]. intros [K|K]; [|congruence]. destruct a as [[]|]; congruence.
    - apply bind_back in E. destruct E as (x & c1 & E1 & E). destruct (OneAssoc _ _ _ _ O H E1) as [H1 ->].
      assert (E' : common_associativity cfg fuel (Some ARight) ts c1 = Ok (r, c')).
      { destruct a as [[]|]; [congruence|exact E|exact E]. }
      assert (Nr : Some ARight <> Some ALeft) by discriminate. destruct (IH _ _ _ _ Nr H1 E') as (H2 & b & -> & B). split; [exact H2|]. exists b. split; [reflexivity|].
      intros _. apply B. left. discriminate.
  Qed.
  Lemma syntax_all (P : tree -> Prop) ts ps : Forall P ts -> Forall P (syntax_at ts ps).
  Proof.
    intros H. rewrite Forall_forall in *. intros t J. unfold syntax_at in J. apply in_flat_map in J. destruct J as (i & _ & J).
    destruct (nth_error ts i) as [u|] eqn:N; [|destruct J]. destruct J as [<-|[]]. apply H. exact (nth_error_In _ _ N).
  Qed.
  Variable Built : list tree -> tree -> Prop.
  Hypothesis BuiltOne : forall t, One t -> Built [t] t.
  Hypothesis BuiltMore : forall l ts r c x c', One l -> Built ts r -> Inv c -> c_combine cfg fuel l r c = Ok (x, c') ->
    Inv c' /\ exists t, x = Val t /\ Built (l :: ts) t.
  Section Fold.
    Variable parse : list tree -> CM tree.
    Hypothesis ParseOne : forall t c, parse [t] c = Ok (Val t, c).
    Variable ts : list tree.
    Hypothesis L3 : le 3 (length ts).
    Hypothesis Ones : Forall One ts.

    Lemma flat_first c r c' :
      try_fold_handler cfg fuel parse ts None (length ts - 1) ARight c = Ok (r, c') ->
      exists t, r = Val (t, length ts - 1) /\ c' = c /\ Built (skipn (length ts - 1) ts) t.
    Proof.
      destruct (one_token ts (length ts - 1)) as (t & T & SL & SK); [lia|].
      replace (S (length ts - 1)) with (length ts) in SL, SK by lia.
      unfold try_fold_handler. cbn [option_map slice_tokens]. intros E.
      apply bind_back in E. destruct E as (x & c1 & E1 & E). unfold clift in E1. rewrite SL in E1.
      injection E1 as <- <-. cbn [length] in E. rewrite skipn_all in SK. rewrite SK.
      destruct (Nat.eqb_spec (length ts - 1) 0); [lia|].
      apply bind_back in E. destruct E as (x & c1 & E1 & E). rewrite ParseOne in E1. injection E1 as <- <-.
      injection E as <- <-. exists t. split; [reflexivity|]. split; [reflexivity|]. apply BuiltOne.
      rewrite Forall_forall in Ones. apply Ones. exact (nth_error_In _ _ T).
    Qed.
    Lemma flat_next k e c r c' : lt (S k) (length ts) -> Built (skipn (S k) ts) e -> Inv c ->
      try_fold_handler cfg fuel parse ts (Some (e, S k)) k ARight c = Ok (r, c') ->
      Inv c' /\ exists t, r = Val (t, k) /\ Built (skipn k ts) t.
    Proof.
      intros LT G H. destruct (one_token ts k) as (t & T & SL & SK); [lia|].
      unfold try_fold_handler. cbn [option_map snd slice_tokens]. intros E.
      apply bind_back in E. destruct E as (x & c1 & E1 & E). unfold clift in E1. rewrite SL in E1.
      injection E1 as <- <-. cbn [length nth] in E.
      apply bind_back in E. destruct E as (x & c1 & E1 & E).
      assert (X : x = Val t /\ c1 = c).
      { destruct (Nat.eqb k 0); cbn in E1; [injection E1 as <- <-; auto|]. rewrite ParseOne in E1. injection E1 as <- <-. auto. }
      destruct X as [-> ->]. clear E1.
      apply bind_back in E. destruct E as (x & c1 & E1 & E).
      assert (O : One t). { rewrite Forall_forall in Ones. apply Ones. exact (nth_error_In _ _ T). }
      destruct (BuiltMore _ _ _ _ _ _ O G H E1) as (H1 & u & -> & B). injection E as <- <-. split; [exact H1|].
      exists u. split; [reflexivity|]. rewrite SK. exact B.
    Qed.
    Lemma flat_rest : forall lps k e c r c',
      desc lps -> (forall i, lt i k -> In i lps) -> (forall i, In i lps -> le i k) ->
      lt k (length ts) -> Built (skipn k ts) e -> Inv c ->
      fold_right_assoc cfg fuel parse ts (Some k) (Some (e, k)) lps c = Ok (r, c') ->
      Inv c' /\ exists t, r = Val (Some 0, Some (t, 0)) /\ Built ts t.
    Proof.
      induction lps as [|lp lps IH]; intros k e c r c' DE CO LE LT G H E; cbn [fold_right_assoc] in E.
      - injection E as <- <-. destruct k as [|k]; [|destruct (CO k); lia]. split; [exact H|]. exists e. auto.
      - destruct DE as [DE1 DE2]. cbn [option_eqb] in E. destruct (Nat.eqb_spec lp k) as [->|N].
        + eapply IH; [exact DE2| | |exact LT|exact G|exact H|exact E].
          * intros i I. destruct (CO i I) as [->|]; [lia|assumption].
          * intros i I. apply LE. right. exact I.
        + assert (LP : S lp = k).
          { pose proof (LE lp (or_introl eq_refl)). destruct k as [|k]; [lia|].
            destruct (CO k) as [->|H']; [lia|reflexivity|]. specialize (DE1 _ H'). lia. }
          subst k. apply bind_back in E. destruct E as (x & c1 & E1 & E).
          destruct (flat_next _ _ _ _ _ LT G H E1) as (H1 & t & -> & G').
          eapply (IH lp t); [exact DE2| | |lia|exact G'|exact H1|exact E].
          * intros i I. destruct (CO i) as [J|]; [lia|lia|assumption].
          * exact DE1.
    Qed.
    Lemma flat_all lps c r c' : desc lps -> (forall i, In i lps <-> lt i (length ts)) -> Inv c ->
      fold_right_assoc cfg fuel parse ts None None lps c = Ok (r, c') ->
      Inv c' /\ exists t, r = Val (Some 0, Some (t, 0)) /\ Built ts t.
    Proof.
      intros DE CO H E. destruct lps as [|lp lps]; [destruct (proj2 (CO 0)); lia|].
      assert (LP : lp = length ts - 1).
      { pose proof (proj1 (CO lp) (or_introl eq_refl)).
        destruct (proj2 (CO (length ts - 1))) as [->|H']; [lia|reflexivity|]. destruct DE as [DE _]. specialize (DE _ H'). lia. }
      subst lp. destruct DE as [DE1 DE2]. cbn [fold_right_assoc option_eqb] in E.
      apply bind_back in E. destruct E as (x & c1 & E1 & E). apply flat_first in E1.
      destruct E1 as (t & -> & -> & G). eapply (flat_rest lps (length ts - 1) t); [exact DE2| | | |exact G|exact H|exact E].
      - intros i I. destruct (proj2 (CO i)) as [J|]; [lia|lia|assumption].
      - exact DE1.
      - lia.
    Qed.
  End Fold.

  (** Three tokens or more: what is done with them. *)
  Lemma long_list n t1 t2 t3 ts c : ast_from_syntax_list cfg fuel (S n) (t1 :: t2 :: t3 :: ts) c =
    cbind (lowest_precedence_info cfg fuel (t1 :: t2 :: t3 :: ts)) (fun info : token_subsequence =>
      match ts_positions info with
      | [] => cfail (LowestPrecendenceNotFound (map display (t1 :: t2 :: t3 :: ts)))
      | _ :: _ =>
        cbind (common_associativity cfg fuel None (ts_syntax info)) (fun a =>
        match a with
        | Some ARight =>
          cbind (fold_right_assoc cfg fuel (ast_from_syntax_list cfg fuel n) (t1 :: t2 :: t3 :: ts) None None
                   (heap_pops (ts_positions info))) (fun '(min, tail) =>
          match tail, min with
          | Some (tail, _), Some min =>
            if Nat.eqb min 0 then cret tail
            else cbind (ast_from_syntax_list cfg fuel n (firstn min (t1 :: t2 :: t3 :: ts))) (fun head =>
                 c_combine cfg fuel head tail)
          | _, _ => cfail AmbiguousExpression
          end)
        | Some ALeft =>
          cbind (heap_iter cfg (ts_positions info)) (fun order =>
          cbind (fold_left_assoc cfg fuel (ast_from_syntax_list cfg fuel n) (t1 :: t2 :: t3 :: ts) None order) (fun st =>
          match st with
          | Some (t, _) => cret t
          | None => cfail AmbiguousExpression
          end))
        | None => cfail AmbiguousExpression
        end)
      end) c.
  Proof. reflexivity. Qed.
  Lemma flat_list t1 t2 t3 ts c r c' : let l := t1 :: t2 :: t3 :: ts in
    Forall One l -> Inv c -> (forall t, In t l -> exists x, t_concept t = Some x /\ ~ related c x) ->
    parse_list cfg fuel l c = Ok (r, c') -> Inv c' /\ exists t, r = Val t /\ Built l t.
  Proof.
    cbn zeta. intros O H U E. unfold parse_list in E. rewrite long_list in E. set (l := t1 :: t2 :: t3 :: ts) in *.
    apply bind_back in E. destruct E as (info & c1 & E1 & E).
    apply (lowest_one l None) in E1; [|exact H| | |].
    2:{ intros t x J X R. destruct (U _ J) as (y & Y & K). rewrite X in Y. injection Y as <-. destruct (K R). }
    2:{ discriminate. }
    2:{ intros t J. destruct (U _ J) as (y & Y & _). congruence. }
    destruct E1 as (H1 & i & -> & SY & PO).
    assert (PO' : forall j, In j (ts_positions i) <-> lt j (length l)).
    { intros j. rewrite PO. split; [intros (t & T & _); apply nth_error_Some; congruence|].
      intros LT. apply nth_error_Some in LT. destruct (nth_error l j) as [t|]; [eauto|congruence]. }
    destruct (ts_positions i) as [|p0 ps] eqn:PS; [destruct (proj2 (PO' 0)); cbn; lia|]. rewrite <- PS in *.
    apply bind_back in E. destruct E as (a & c2 & E2 & E).
    apply common_right in E2; [|rewrite SY; apply syntax_all, O|discriminate|exact H1].
    destruct E2 as (H2 & b & -> & B).
    assert (b = Some ARight) as ->.
    { apply B. right. rewrite SY, PS. unfold syntax_at. cbn [flat_map].
      destruct (nth_error l p0) as [t|] eqn:N; [discriminate|]. apply nth_error_None in N.
      assert (J : In p0 (ts_positions i)) by (rewrite PS; left; reflexivity). apply PO' in J. lia. }
    apply bind_back in E. destruct E as (st & c3 & E3 & E).
    apply flat_all in E3; [| |cbn; lia|exact O|apply heap_pops_desc| |exact H2].
    - destruct E3 as (H3 & t & -> & Bt). cbn in E. injection E as <- <-. eauto.
    - reflexivity.
    - intros j. rewrite heap_pops_in. apply PO'.
  Qed.
End Flat.

Section Ranked.
  Variables (cfg : config) (snap : snapshot).
  Hypothesis F : fair cfg.
  Hypothesis LC : compositions_are_listed snap.
  Hypothesis LR : listed_compositions_are_real snap.
  Hypothesis HK : hands_keyed snap.
  Hypothesis BI : forall cc c, concrete_concept_id cfg snap delta_default cc = Ok (Some c) -> is_built_in snap c cc.
  Lemma committed_hands o h x w : In (x, w) (m_iter_hand_of cfg (mixed_of_committed o) h) <->
    exists j p, x = Committed j /\ w = Committed p /\ In (j, p) (hand_of o h).
  Proof.
    cbn [m_iter_hand_of mixed_of_committed]. rewrite in_flat_map. split.
    - intros ([j p] & J & J').
      assert (Q : (x, w) = (Committed j, Committed p)) by (destruct h; cbn in J'; destruct J' as [J'|[]]; symmetry; exact J').
      injection Q as -> ->. exists j, p. split; [reflexivity|]. split; [reflexivity|]. exact (Permutation_in _ (F _ _ _) J).
    - intros (j & p & -> & -> & J). exists (j, p). split; [exact (Permutation_in _ (Permutation_sym (F _ _ _)) J)|].
      destruct h; left; reflexivity.
  Qed.
  Lemma keyed_in (m : list (nat * nat)) j p : NoDup (map fst m) -> In (j, p) m -> aget Nat.eqb j m = Some p.
  Proof.
    induction m as [|[k v] m IH]; intros H J; [destruct J|]. cbn in *. inversion H as [|? ? Nk D]; subst.
    destruct J as [[= -> ->]|J]; [rewrite Nat.eqb_refl; reflexivity|].
    destruct (Nat.eqb_spec j k) as [->|_]; [|exact (IH D J)]. exfalso. apply Nk. exact (in_map fst _ _ J).
  Qed.
  Lemma aget_listed (m : list (nat * nat)) j p : aget Nat.eqb j m = Some p -> In (j, p) m.
  Proof.
    induction m as [|[k v] m IH]; cbn; [discriminate|]. destruct (Nat.eqb_spec j k) as [->|_]; [intros [= ->]; auto|auto].
  Qed.
  Lemma related_ranked c x : c_snap c = snap -> c_delta c = delta_default -> related cfg c x -> exists k, x = Committed k /\ ranked snap k.
  Proof.
    intros S D (p & m & y & comp & CP & RM & J & O). rewrite S, D in *. destruct (BI _ _ CP) as (k & -> & Bk).
    apply (wide_back cfg snap _ (WidensSame _)) in RM. destruct RM as (o & L & ->). apply committed_hands in J.
    destruct J as (j & q & -> & -> & J).
    assert (C : composed snap q k j).
    { apply LR. left. exists o. split; [exact L|]. exact (keyed_in _ _ _ (HK _ _ HLeft L) J). }
    destruct O as [->|(m' & w & RM & J')].
    - exists j. split; [reflexivity|]. exists k, q, j. auto.
    - apply (wide_back cfg snap _ (WidensSame _)) in RM. destruct RM as (o' & L' & ->). apply committed_hands in J'.
      destruct J' as (i & q' & -> & -> & J'). exists i. split; [reflexivity|]. exists k, q, j. split; [exact Bk|]. split; [exact C|].
      right. exists q'. apply LR. right. exists o'. split; [exact L'|]. exact (keyed_in _ _ _ (HK _ _ HRight L') J').
  Qed.
  Lemma ranked_related p c k : c_snap c = snap -> c_delta c = delta_default ->
    concrete_concept_id cfg snap delta_default CPrecedes = Ok (Some (Committed p)) ->
    (forall a b, built_in snap a CPrecedes -> built_in snap b CPrecedes -> a = b) ->
    ranked snap k -> related cfg c (Committed k).
  Proof.
    intros S D CP UP (p' & comp & y & Bp & C & O). destruct (BI _ _ CP) as (p2 & [= <-] & Bp'). rewrite (UP _ _ Bp Bp') in *.
    destruct (LC _ _ _ C) as [(o & L & A) _]. exists (Committed p), (mixed_of_committed o), (Committed y), (Committed comp).
    rewrite S, D. split; [exact CP|]. split; [exact (read_committed cfg _ _ _ L)|]. split.
    - apply committed_hands. exists y, comp. split; [reflexivity|]. split; [reflexivity|]. exact (aget_listed _ _ _ A).
    - destruct O as [->|(q & C')]; [auto|]. right. destruct (LC _ _ _ C') as [_ (o' & L' & A')].
      exists (mixed_of_committed o'), (Committed q). split; [exact (read_committed cfg _ _ _ L')|].
      apply committed_hands. exists k, q. split; [reflexivity|]. split; [reflexivity|]. exact (aget_listed _ _ _ A').
  Qed.
End Ranked.
