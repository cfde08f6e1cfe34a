(** Every identifier that a command handles was obtained from the store, from the delta or
    by creating a concept.  Stated for an arbitrary property [P] of identifiers that holds
    of all uncommitted ones and of all committed ones the store mentions. *)
From Verif Require Import Snapshot Search Context StoreSpec MapFacts LexerFacts AstFacts StoreFacts.
From Coq Require Import List String Permutation.
Import ListNotations.

(** A canonical predicate for each type of value. *)
Class Good (A : Type) := good : A -> Prop.
#[export] Instance good_default A : Good A | 100 := fun _ => True.
#[export] Instance good_option A (G : Good A) : Good (option A) :=
  fun o => match o with Some a => good a | None => True end.
#[export] Instance good_list A (G : Good A) : Good (list A) := fun l => forall a, In a l -> good a.
#[export] Instance good_prod A B (G : Good A) (H : Good B) : Good (A * B) :=
  fun p => good (fst p) /\ good (snd p).

Section Range.
  Variable cfg : config.
  Hypothesis F : fair cfg.
  Variable P : cid -> Prop.
  Hypothesis PU : forall u, P (Uncommitted u).
  Variable snap : snapshot.

  #[local] Instance good_cid : Good cid := P.
  #[local] Instance good_key : Good key := fun _ => True.
  #[local] Instance good_text : Good text := fun _ => True.
  (** A pair that has no concept is displayed with a space. *)
  Definition gap (s : option text) : Prop := match s with Some t => In c_space t | None => True end.
  Fixpoint okt (t : tree) : Prop :=
    match t with
    | TLeaf _ c _ => good c
    | TBranch s c l r _ _ => good c /\ okt l /\ okt r /\ (c = None -> gap s)
    end.
  #[local] Instance good_tree : Good tree := okt.
  #[local] Instance good_subs : Good substitutions := @good_list (key * tree) _.
  #[local] Instance good_mask : Good mask := @good_list (cid * tree) _.
  #[local] Instance good_es : Good ex_subs := fun s => good (es_gen s) /\ good (es_ex s).
  #[local] Instance good_rresult : Good rresult := @good_option (tree * reason) _.

  (** Concepts *)
  Definition okspec {I} (Q : I -> Prop) (sp : specific I) : Prop :=
    match sp with
    | Abstract k red =>
      match k with Comp l r _ _ => Q l /\ Q r | Leaf _ => True end /\
      match red with Some r => Q r | None => True end
    | _ => True
    end.
  Definition okc {I} (Q : I -> Prop) (c : concept I) : Prop :=
    Q (c_id c) /\
    (forall k v, In (k, v) (lefthand_of c) -> Q k /\ Q v) /\
    (forall k v, In (k, v) (righthand_of c) -> Q k /\ Q v) /\
    (forall u, In u (reduces_from c) -> Q u) /\
    okspec Q (c_spec c).
  Definition ok_changes (ch : changes) : Prop :=
    (forall k v, In (k, Some v) (ch_left ch) -> P v) /\
    (forall k v, In (k, Some v) (ch_right ch) -> P v) /\
    (forall k b, In (k, b) (ch_from ch) -> P k).
  #[local] Instance good_mixed : Good mixed := fun m =>
    match m with
    | MPrev o ch comp red =>
      okc (fun n => P (Committed n)) o /\ ok_changes ch /\ good comp /\ good red
    | MUnc c => okc P c
    end.
  (** The committed store *)
  Definition ok_snap : Prop :=
    (forall n c, lookup snap n = Some c -> okc (fun n => P (Committed n)) c) /\
    (forall t n, In (t, n) (string_map snap) -> P (Committed n)) /\
    (forall n cc, In (n, cc) (concrete_concepts snap) -> P (Committed n)).
  Hypothesis OS : ok_snap.

  (** Deltas *)
  #[local] Instance good_indirect : Good (indirect cid) := fun d =>
    match d with
    | ILefthandOf a b | IRighthandOf a b | IComposedOf a b => P a /\ P b
    | INoLongerLefthandOf a | INoLongerRighthandOf a | IReducesFrom a
    | INoLongerReducesFrom a => P a
    end.
  #[local] Instance good_new : Good (new_delta cid) := fun d =>
    match d with
    | NComposition a b | NLefthand a b _ | NRighthand a b _ => P a /\ P b
    | NDouble a _ | NReducesTo a => P a
    | _ => True
    end.
  #[local] Instance good_change A (G : Good A) : Good (change A) := fun ch =>
    match ch with
    | Create a | Remove a => good a
    | Update a b => good a /\ good b
    end.
  #[local] Instance good_direct : Good direct := fun d =>
    match d with
    | DNew nd => good nd
    | DCompose c ch => good c /\ good ch
    | DReduce c ch => good c /\ good ch
    | DRemove c => good c
    end.
  #[local] Instance good_cdelta : Good cdelta := fun d =>
    match d with Direct d => good d | Indirect i => good i end.
  #[local] Instance good_layer : Good layer := fun l =>
    good (d_string l) /\ good (d_concept l) /\ good (d_order l).
  #[local] Instance good_delta : Good delta := fun d => good (layers d).

  (** ** Lists and outcomes *)
  Definition ok {A} {G : Good A} (m : outcome A) : Prop := forall a, m = Ok a -> good a.
  Lemma ok_obind {A B} {G : Good A} {H : Good B} (m : outcome A) (f : A -> outcome B) :
    ok m -> (forall a, good a -> ok (f a)) -> ok (obind m f).
  Proof.
    intros Hm Hf b E. apply obind_ok in E. destruct E as (a & Ea & E). eapply Hf; eauto.
  Qed.
  (** Without knowing anything of the first value. *)
  Lemma ok_obind_any {A B} {H : Good B} (m : outcome A) (f : A -> outcome B) :
    (forall a, ok (f a)) -> ok (obind m f).
  Proof.
    intros Hf b E. apply obind_ok in E. destruct E as (a & Ea & E). eapply Hf; eauto.
  Qed.
  Lemma ok_Ok {A} {G : Good A} (a : A) : good a -> ok (Ok a).
  Proof. intros H b [= <-]. exact H. Qed.
  Lemma ok_bad {A} {G : Good A} (m : outcome A) : (forall a, m <> Ok a) -> ok m.
  Proof. intros H a E. destruct (H a E). Qed.
  Lemma ok_omap {A B} {G : Good A} {H : Good B} (f : A -> B) m :
    ok m -> (forall a, good a -> good (f a)) -> ok (omap f m).
  Proof. intros Hm Hf. apply ok_obind; auto. intros a Ha. apply ok_Ok. auto. Qed.
  Lemma ok_unwrap {A} {G : Good A} (o : option A) site : good o -> ok (unwrap o site).
  Proof. intros H a E. apply unwrap_ok in E. subst. exact H. Qed.

  Lemma good_nil {A} {G : Good A} : good (@nil A).
  Proof. intros a []. Qed.
  Lemma good_cons {A} {G : Good A} (a : A) l : good (a :: l) <-> good a /\ good l.
  Proof.
    split.
    - intros H. split; [apply H; left; auto|intros b I; apply H; right; auto].
    - intros [H1 H2] b [<-|I]; auto.
  Qed.
  Lemma good_app {A} {G : Good A} (l m : list A) : good l -> good m -> good (l ++ m).
  Proof. intros H1 H2 a I. apply in_app_iff in I. destruct I; auto. Qed.
  Lemma good_filter {A} {G : Good A} f (l : list A) : good l -> good (filter f l).
  Proof. intros H a I. apply filter_In in I. apply H, I. Qed.
  Lemma good_map {A B} {G : Good A} {H : Good B} (f : A -> B) l :
    good l -> (forall a, good a -> good (f a)) -> good (map f l).
  Proof. intros L K b I. apply in_map_iff in I. destruct I as (a & <- & I). auto. Qed.
  Lemma good_ord {A} {G : Good A} o (l : list A) : good l -> good (ord cfg o A l).
  Proof. intros H a I. apply H. eapply Permutation_in; [apply F|exact I]. Qed.
  Lemma good_aget {K V} {G : Good V} eqb (k : K) (m : list (K * V)) :
    (forall a, In a m -> good (snd a)) -> good (aget eqb k m).
  Proof.
    induction m as [|[k' v] m IH]; cbn; intros H; [exact I|].
    destruct (eqb k k').
    - apply (H (k', v)). auto.
    - apply IH. auto.
  Qed.
  Lemma in_aset_weak {K V} eqb (k : K) (v : V) m p :
    In p (aset eqb k v m) -> p = (k, v) \/ In p m.
  Proof.
    induction m as [|[k' v'] m IH]; cbn; [intuition|].
    destruct (eqb k k'); cbn; intuition.
  Qed.
  Lemma in_adel_weak {K V} eqb (k : K) (m : list (K * V)) p : In p (adel eqb k m) -> In p m.
  Proof.
    induction m as [|[k' v'] m IH]; cbn; [auto|].
    destruct (eqb k k'); cbn; intuition.
  Qed.
  Lemma in_sadd_weak {K} eqb (k : K) s x : In x (sadd eqb k s) -> x = k \/ In x s.
  Proof. unfold sadd. destruct (smem eqb k s); rewrite ?in_app_iff; cbn; intuition. Qed.
  Lemma in_sextend_weak {K} eqb (t s : list K) x : In x (sextend eqb s t) -> In x s \/ In x t.
  Proof.
    unfold sextend. revert s. induction t as [|k t IH]; cbn; intros s H; [auto|].
    destruct (IH _ H) as [X|X]; [|auto]. apply in_sadd_weak in X. intuition.
  Qed.
  Lemma good_sadd {K} {G : Good K} eqb (k : K) s : good k -> good s -> good (sadd eqb k s).
  Proof. intros H1 H2 x I. apply in_sadd_weak in I. destruct I as [->|I]; auto. Qed.
  Lemma good_sextend {K} {G : Good K} eqb (t s : list K) :
    good s -> good t -> good (sextend eqb s t).
  Proof. intros H1 H2 x I. apply in_sextend_weak in I. destruct I; auto. Qed.

  (** ** Reading concepts *)
  Lemma okspec_red I (Q : I -> Prop) (c : concept I) r :
    okc Q c -> get_reduction c = Some r -> Q r.
  Proof.
    intros (_ & _ & _ & _ & H). unfold get_reduction. destruct (c_spec c); try discriminate.
    intros ->. apply H.
  Qed.
  Lemma okspec_comp I (Q : I -> Prop) (c : concept I) l r :
    okc Q c -> get_composition c = Some (l, r) -> Q l /\ Q r.
  Proof.
    intros (_ & _ & _ & _ & H). unfold get_composition.
    destruct (c_spec c) as [|[] ?|]; try discriminate. intros [= <- <-]. apply H.
  Qed.

  Lemma ok_get_concept id : good (get_concept snap id).
  Proof.
    destruct id as [n|u]; cbn; [|exact I].
    destruct (nth_error (concepts snap) n) as [c|] eqn:E; [|exact I].
    pose proof (proj1 OS n c E) as C. unfold mixed_of_committed. cbn.
    split; [exact C|]. split; [repeat split; intros ? ? []|]. split.
    - destruct (get_composition c) as [[l r]|] eqn:G; [|exact I].
      apply (okspec_comp _ _ _ _ _ C) in G. exact G.
    - destruct (get_reduction c) eqn:G; [|exact I].
      apply (okspec_red _ _ _ _ C) in G. exact G.
  Qed.

  Lemma ok_concept_of_new id nd : P id -> good nd -> okc P (concept_of_new id nd).
  Proof.
    intros Pi G. destruct nd; cbn in *; unfold okc; cbn;
      repeat match goal with
      | |- _ /\ _ => split
      | |- forall _, _ => intro
      | H : _ \/ _ |- _ => destruct H
      | H : False |- _ => destruct H
      | H : (_, _) = (_, _) |- _ => injection H; clear H; intros; subst
      | H : _ /\ _ |- _ => destruct H
      | c : option cct |- _ => destruct c; cbn
      end; auto.
  Qed.

  Lemma okc_set_spec Q (c : concept cid) sp : okc Q c -> okspec Q sp -> okc Q (set_spec c sp).
  Proof. unfold okc. cbn. tauto. Qed.

  Lemma ok_change_reduction m ch : good m -> good ch -> ok (m_change_reduction cfg m ch).
  Proof.
    intros Hm Hc. destruct m as [o chs comp red|c]; cbn.
    - apply ok_Ok. destruct Hm as (A & B & C & D).
      split; [exact A|]. split; [exact B|]. split; [exact C|].
      destruct ch; cbn in *; tauto.
    - apply (@ok_omap _ _ (okc P) _); [|auto].
      intros c' E. unfold change_reduction in E.
      assert (Hc' : okc P c) by exact Hm. destruct (c_spec c) as [|k r|] eqn:Sp; oinv; subst; auto.
      assert (K : match k with Comp l r _ _ => P l /\ P r | Leaf _ => True end).
      { destruct Hc' as (_ & _ & _ & _ & X). rewrite Sp in X. apply X. }
      destruct ch; oinv; subst; apply okc_set_spec; auto; cbn; split; auto.
      exact (proj2 Hc).
  Qed.

  Lemma ok_insert_into (Q : cid -> Prop) d k v m m' :
    (forall a b, In (a, b) m -> Q a /\ Q b) -> Q k -> Q v ->
    insert_into cid_eqb d k v m = Ok m' -> forall a b, In (a, b) m' -> Q a /\ Q b.
  Proof.
    unfold insert_into. intros H Hk Hv E a b I. oinv. subst.
    apply in_aset_weak in I. destruct I as [[= -> ->]|I]; auto.
  Qed.

  Lemma ok_apply_indirect m d : good m -> good d -> ok (m_apply_indirect cfg m d).
  Proof.
    intros Hm Hd. destruct m as [o chs comp red|c]; cbn.
    - apply ok_Ok. destruct Hm as (A & (B1 & B2 & B3) & C & D).
      destruct d; (split; [exact A|]); (split; [repeat split; cbn; intros ? ? I;
        try (apply in_aset_weak in I; destruct I as [I|I]; [injection I; intros; subst|]); eauto|]);
        try (split; assumption); cbn in Hd; try tauto; try discriminate.
    - apply (@ok_omap _ _ (okc P) _); [|auto].
      assert (Hc' : okc P c) by exact Hm. pose proof Hc' as (A & B & C & D & E).
      intros c' X. unfold apply_indirect in X. destruct d; cbn in Hd; oinv; subst.
      + split; [exact A|]. split; [|auto]. cbn.
        eapply ok_insert_into; [exact B|..|exact E0]; tauto.
      + split; [exact A|]. split; [exact B|]. split; [|auto]. cbn.
        eapply ok_insert_into; [exact C|..|exact E0]; tauto.
      + split; [exact A|]. split; [|auto]. cbn. intros k v I. apply in_adel_weak in I. auto.
      + split; [exact A|]. split; [exact B|]. split; [|auto]. cbn.
        intros k v I. apply in_adel_weak in I. auto.
      + split; [exact A|]. split; [exact B|]. split; [exact C|]. split; [|exact E]. cbn.
        intros u I. apply in_sadd_weak in I. destruct I as [->|I]; auto.
      + split; [exact A|]. split; [exact B|]. split; [exact C|]. split; [|exact E]. cbn.
        intros u I. unfold sdel in I. apply filter_In in I. apply D, I.
      + destruct (c_spec c) as [|k r|] eqn:Sp; oinv; subst. apply okc_set_spec.
        { exact Hc'. }
        cbn in *. split; [tauto|]. apply E.
  Qed.

  Lemma ok_read_steps id m cds : P id -> good m -> good cds -> ok (read_steps cfg id m cds).
  Proof.
    intros Pi. revert m. induction cds as [|cd cds IH]; cbn; intros m Hm Hc; [apply ok_Ok; exact Hm|].
    apply good_cons in Hc. destruct Hc as [H1 H2].
    apply ok_obind; [|intros a Ha; auto].
    destruct cd as [[nd|c ch|u ch|i]|i]; cbn.
    - apply ok_obind_any. intros _. apply ok_Ok. apply ok_concept_of_new; auto.
    - apply ok_obind_any. intros _. apply ok_bad. discriminate.
    - apply ok_obind_any. intros _. apply ok_obind; [apply ok_unwrap, Hm|].
      intros a Ha. apply (@ok_omap _ _ good_mixed _); [|auto]. apply ok_change_reduction; auto. apply H1.
    - apply ok_obind_any. intros _. apply ok_obind_any. intros _. apply ok_Ok. exact I.
    - apply ok_obind; [apply ok_unwrap, Hm|].
      intros a Ha. apply (@ok_omap _ _ good_mixed _); [|auto]. apply ok_apply_indirect; auto.
  Qed.

  Lemma ok_layers_concept ls id : good ls -> good (layers_concept ls id).
  Proof.
    induction ls as [|l ls IH]; cbn; intros H; [exact I|].
    apply good_cons in H. destruct H as [H1 H2]. specialize (IH H2).
    assert (A : good (aget cid_eqb id (d_concept l))).
    { apply good_aget. intros a Ia. exact (proj2 (proj1 (proj2 H1) a Ia)). }
    destruct (layers_concept ls id), (aget cid_eqb id (d_concept l)); auto.
    apply good_app; auto.
  Qed.

  Section Reader.
    Variable d : delta.
    Hypothesis D : good d.

    Lemma ok_maybe_read id : P id -> ok (maybe_read_concept cfg snap d id).
    Proof.
      intros Pi. unfold maybe_read_concept, delta_concept.
      pose proof (ok_layers_concept (layers d) id D) as L.
      destruct (layers_concept (layers d) id); [|apply ok_Ok; exact I].
      apply ok_read_steps; auto. apply ok_get_concept.
    Qed.
    Lemma ok_read id : P id -> ok (read_concept cfg snap d id).
    Proof.
      intros Pi. unfold read_concept. apply ok_obind; [apply ok_maybe_read; auto|].
      intros [m|] Hm; [apply ok_Ok; exact Hm|apply ok_unwrap, ok_get_concept].
    Qed.
  End Reader.

  (** What a concept read through the delta mentions *)
  Lemma ok_m_id m : good m -> good (m_id m).
  Proof. destruct m; cbn; intros H; [exact (proj1 (proj1 H))|exact (proj1 H)]. Qed.
  Lemma ok_m_composition m : good m -> good (m_composition m).
  Proof.
    destruct m as [o ch comp red|c]; cbn; intros H; [apply H|].
    destruct (get_composition c) as [[l r]|] eqn:E; [|exact I].
    apply (okspec_comp _ _ _ _ _ H) in E. exact E.
  Qed.
  Lemma ok_m_reduction m : good m -> good (m_reduction m).
  Proof.
    destruct m as [o ch comp red|c]; cbn; intros H; [apply H|].
    destruct (get_reduction c) eqn:E; [|exact I]. apply (okspec_red _ _ _ _ H) in E. exact E.
  Qed.
  Lemma ok_m_find m other h : good m -> good (m_find_as_hand m other h).
  Proof.
    assert (K : forall I (Q : I -> Prop) eqb (c : concept I) x, okc Q c ->
              match find_as_hand eqb c x h with Some v => Q v | None => True end).
    { intros I Q eqb c x (_ & A & B & _). unfold find_as_hand.
      assert (X : forall k v, In (k, v) (hand_of c h) -> Q v).
      { intros k v J. destruct h; [apply (A k)|apply (B k)]; exact J. }
      induction (hand_of c h) as [|[k v] q IH]; cbn; [exact Logic.I|].
      destruct (eqb x k); [apply (X k v); cbn; auto|].
      apply IH. intros k' v' J. apply (X k' v'). cbn. auto. }
    destruct m as [o ch comp red|c]; cbn; intros H.
    - destruct H as (A & (B1 & B2 & _) & _).
      destruct (aget cid_eqb other match h with HLeft => ch_left ch | HRight => ch_right ch end)
        as [v|] eqn:E.
      + apply (aget_in _ cid_eqb_spec) in E. destruct v as [v|]; [|exact I].
        destruct h; [apply (B1 _ _ E)|apply (B2 _ _ E)].
      + destruct other as [n|]; [|exact I].
        pose proof (K nat (fun n => P (Committed n)) Nat.eqb o n A) as X.
        destruct (find_as_hand Nat.eqb o n h); exact X.
    - apply (K cid P cid_eqb c other H).
  Qed.
  Lemma ok_m_reduces_from m : good m -> good (m_reduces_from cfg m).
  Proof.
    destruct m as [o ch comp red|c]; cbn; intros H.
    - destruct H as ((_ & _ & _ & A & _) & (_ & _ & B) & _). apply good_app.
      + apply good_filter. intros x I. apply in_map_iff in I. destruct I as (n & <- & I).
        apply A. eapply Permutation_in; [apply F|exact I].
      + intros x I. apply in_map_iff in I. destruct I as ([k b] & <- & I).
        apply filter_In in I. destruct I as [I _]. apply (B k b).
        eapply Permutation_in; [apply F|exact I].
    - apply good_ord. exact (proj1 (proj2 (proj2 (proj2 H)))).
  Qed.
  Lemma ok_m_iter_hand m h : good m -> good (m_iter_hand_of cfg m h).
  Proof.
    destruct m as [o ch comp red|c]; cbn; intros H.
    - destruct H as ((_ & A1 & A2 & _) & (B1 & B2 & _) & _).
      intros x I. apply in_flat_map in I. destruct I as ([k v] & I & J).
      assert (K : P (Committed k) /\ P (Committed v)).
      { apply (Permutation_in _ (F _ _ _)) in I. destruct h; [apply A1|apply A2]; exact I. }
      destruct (aget cid_eqb (Committed k) match h with HLeft => ch_left ch | HRight => ch_right ch end)
        as [[w|]|] eqn:E; [destruct J as [<-|[]]|destruct J|destruct J as [<-|[]]]; cbn; [|exact K].
      apply (aget_in _ cid_eqb_spec) in E. split; [apply K|].
      destruct h; [apply (B1 _ _ E)|apply (B2 _ _ E)].
    - apply good_ord. destruct H as (_ & A1 & A2 & _).
      intros [k v] I. destruct h; [apply A1|apply A2]; exact I.
  Qed.
  Lemma ok_m_iter_ids m h : good m -> good (m_iter_composition_ids cfg m h).
  Proof.
    intros H. apply good_map; [apply ok_m_iter_hand; exact H|]. intros a Ha. apply Ha.
  Qed.

  Lemma ok_any {A} (m : outcome A) : @ok A (good_default A) m.
  Proof. intros a _. exact I. Qed.
  Lemma ok_opt_any {A} (m : outcome (option A)) : @ok _ (good_option A (good_default A)) m.
  Proof. intros [a|] _; exact I. Qed.
  Lemma good_aset {K V} {G : Good K} {H : Good V} eqb (k : K) (v : V) m :
    good k -> good v -> good m -> good (aset eqb k v m).
  Proof. intros Hk Hv Hm p I. apply in_aset_weak in I. destruct I as [->|I]; [split; auto|auto]. Qed.
  Lemma good_aget_list {K V} {G : Good K} {H : Good V} eqb (k : K) (m : list (K * V)) :
    good m -> good (aget eqb k m).
  Proof. intros Hm. apply good_aget. intros a I. apply (Hm a I). Qed.

  Hint Resolve ok_m_id ok_m_composition ok_m_reduction ok_m_find ok_m_reduces_from
    ok_m_iter_hand ok_m_iter_ids ok_get_concept good_nil good_app good_sadd good_sextend
    good_aset good_aget_list ok_read ok_maybe_read good_ord : rng.

  Section Reader2.
    Variable d : delta.
    Hypothesis D : good d.

    Lemma ok_scan_deltas id acc cds :
      P id -> good acc -> ok (concrete_scan_deltas cfg id acc cds).
    Proof.
      intros Pi. revert acc. induction cds as [|cd cds IH]; cbn; intros acc A; [apply ok_Ok; exact A|].
      destruct cd as [[]|]; auto.
      apply ok_obind_any. intros _. apply IH. exact I.
    Qed.
    Lemma ok_scan cc acc entries :
      good acc -> (forall e, In e entries -> P (fst e)) ->
      ok (concrete_scan cfg snap d cc acc entries).
    Proof.
      revert acc. induction entries as [|[id cds] es IH]; cbn; intros acc A E; [apply ok_Ok; exact A|].
      apply ok_obind_any. intros t. apply ok_obind.
      - destruct (opt_cct_eqb t (Some cc)); [|apply ok_Ok; exact A].
        apply ok_scan_deltas; [|exact A]. apply (E (id, cds)). auto.
      - intros a Ha. apply IH; [exact Ha|]. intros e' H'. apply E. auto.
    Qed.
    Lemma good_iter_concepts : forall e, In e (delta_iter_concepts cfg d) -> P (fst e).
    Proof.
      unfold delta_iter_concepts. revert D. unfold good, good_delta.
      induction (layers d) as [|l ls IH]; cbn; [intros _ e []|].
      intros H e. apply good_cons in H. destruct H as [H1 H2].
      rewrite in_app_iff. intros [X|X].
      - apply filter_In in X. apply IH; [exact H2|apply X].
      - apply in_map_iff in X. destruct X as ([id o] & <- & X). cbn.
        apply (Permutation_in _ (F _ _ _)) in X. apply (proj1 (proj2 H1) _ X).
    Qed.
    Lemma ok_concrete_id cc : ok (concrete_concept_id cfg snap d cc).
    Proof.
      unfold concrete_concept_id. apply ok_obind.
      - apply ok_scan; [exact I|apply good_iter_concepts].
      - intros [o|] Ho; apply ok_Ok; [exact Ho|].
        unfold bimap_by_right. destruct (find _ _) as [[n cc']|] eqn:E; [|exact I].
        apply find_some in E. apply (proj2 (proj2 OS) n cc'). apply E.
    Qed.
    Lemma ok_delta_string s : ok (delta_string (dbg cfg) d s).
    Proof.
      unfold delta_string. revert D. unfold good, good_delta.
      induction (layers d) as [|l ls IH]; cbn; intros H; [apply ok_Ok; exact I|].
      apply good_cons in H. destruct H as [H1 H2]. apply ok_obind; [auto|].
      intros a Ha.
      assert (A : good (aget text_eqb s (d_string l))).
      { apply good_aget. intros x Ix. apply (proj1 H1 x Ix). }
      destruct a as [[]|], (aget text_eqb s (d_string l)) as [[]|]; cbn in *;
        try (apply ok_bad; discriminate); try (apply ok_Ok; cbn; tauto);
        repeat match goal with |- context [if ?b then _ else _] => destruct b end;
        try (apply ok_bad; discriminate); try (apply ok_Ok; cbn; tauto);
        apply ok_obind_any; intros _; apply ok_Ok; cbn; tauto.
    Qed.
    Lemma ok_string_concept s : ok (get_string_concept cfg snap d s).
    Proof.
      unfold get_string_concept. apply ok_obind; [apply ok_delta_string|].
      intros [[]|] H; cbn in H; try (apply ok_obind_any; intros _); apply ok_Ok; cbn; try tauto.
      destruct (aget text_eqb s (string_map snap)) as [n|] eqn:E; [|exact I].
      apply (aget_in _ text_eqb_spec) in E. apply (proj1 (proj2 OS) _ _ E).
    Qed.
    Lemma ok_labellee_loop n cs : good cs -> ok (labellee_loop cfg snap d n cs).
    Proof.
      revert cs. induction n as [|n IH]; intros [|c cs] H; cbn; try (apply ok_Ok; exact I).
      - apply ok_bad. discriminate.
      - apply good_cons in H. destruct H as [H1 H2].
        apply ok_obind; [eauto with rng|]. intros m Hm.
        apply ok_obind.
        + pose proof (ok_m_composition m Hm) as C.
          destruct (m_composition m) as [[r x]|]; [|apply ok_Ok; exact I].
          apply ok_obind_any. intros t. apply ok_Ok.
          destruct (opt_cct_eqb t (Some CLabel)); [apply C|exact I].
        + intros [x|] Hx; [apply ok_Ok; exact Hx|]. apply IH. auto with rng.
    Qed.
    Lemma ok_labellee n c : P c -> ok (get_labellee cfg snap d n c).
    Proof.
      intros Pc. unfold get_labellee. apply ok_obind; [eauto with rng|].
      intros m Hm. apply ok_labellee_loop. auto with rng.
    Qed.
    Lemma ok_from_label n s : ok (concept_from_label cfg snap d n s).
    Proof.
      unfold concept_from_label. apply ok_obind; [apply ok_string_concept|].
      intros [c|] H; [apply ok_labellee; exact H|apply ok_Ok; exact I].
    Qed.
    Lemma ok_normal_form n c : P c -> ok (get_normal_form cfg snap d n c).
    Proof.
      revert c. induction n as [|n IH]; intros c Pc; cbn; [apply ok_bad; discriminate|].
      apply ok_obind; [eauto with rng|]. intros m Hm.
      pose proof (ok_m_reduction m Hm) as R. destruct (m_reduction m) as [r|]; [|apply ok_Ok; exact I].
      apply ok_obind; [apply IH; exact R|]. intros [x|] Hx; apply ok_Ok; auto.
    Qed.
    Lemma ok_concept_of_label c : P c -> ok (get_concept_of_label cfg snap d c).
    Proof.
      intros Pc. unfold get_concept_of_label. apply ok_obind; [apply ok_concrete_id|].
      intros [l|] Hl; [|apply ok_Ok; exact I]. apply ok_obind; [eauto with rng|].
      intros m Hm. apply ok_Ok. auto with rng.
    Qed.
    Lemma ok_reduction_of_composition n c :
      P c -> ok (get_reduction_of_composition cfg snap d n c).
    Proof.
      revert c. induction n as [|n IH]; intros c Pc; cbn; [apply ok_bad; discriminate|].
      apply ok_obind; [eauto with rng|]. intros m Hm.
      pose proof (ok_m_composition m Hm) as C.
      destruct (m_composition m) as [[l r]|]; [|apply ok_Ok; exact Pc].
      assert (X : forall c, P c -> ok (obind (read_concept cfg snap d c) (fun m =>
                 obind (match m_reduction m with Some r => Ok r
                        | None => get_reduction_of_composition cfg snap d n c end)
                   (fun r => read_concept cfg snap d r)))).
      { intros c' Pc'. apply ok_obind; [eauto with rng|]. intros m' Hm'.
        pose proof (ok_m_reduction m' Hm') as R.
        apply (@ok_obind _ _ good_cid _); [destruct (m_reduction m'); [apply ok_Ok; exact R|auto]|].
        intros r' Hr'. eauto with rng. }
      apply ok_obind; [apply X, C|]. intros ml Hl.
      apply ok_obind; [apply X, C|]. intros mr Hr. apply ok_Ok.
      pose proof (ok_m_find ml (m_id mr) HLeft Hl) as Y.
      destruct (m_find_as_hand ml (m_id mr) HLeft); [exact Y|exact Pc].
    Qed.
    Lemma okt_bind_nq t c : good t -> P c -> good (bind_nonquantifier t c).
    Proof. destruct t; cbn; [auto|]. intros (_ & A & B & _) C. repeat (split; [assumption|]). discriminate. Qed.
    Lemma ok_bind_syntax t c : good t -> P c -> ok (bind_concept_to_syntax cfg snap d t c).
    Proof.
      intros Ht Pc. unfold bind_concept_to_syntax. apply ok_obind_any. intros ty.
      destruct (opt_cct_eqb ty (Some CExistsSuchThat)).
      - apply ok_obind_any. intros _. apply ok_Ok. exact Pc.
      - apply ok_Ok. apply okt_bind_nq; auto.
    Qed.
  End Reader2.
  Lemma ok_leaf_syntax m : good m -> good (new_syntax_from_leaf_concept m).
  Proof.
    intros H. apply ok_m_id in H. unfold new_syntax_from_leaf_concept.
    destruct (opt_cct_eqb _ _); [exact H|]. destruct (m_anonymous m); exact H.
  Qed.

  (** ** Trees *)
  Lemma okt_concept t : good t -> good (t_concept t).
  Proof. destruct t; cbn; tauto. Qed.
  Lemma okt_exp t : good t -> good (t_exp t).
  Proof. destruct t; cbn; [auto|]. intros (_ & A & B & _). split; assumption. Qed.
  Lemma okt_branch s c l r : good c -> good l -> good r -> (c = None -> gap s) -> good (branch s c l r).
  Proof. unfold branch. destruct (pair_vars l r). cbn. auto. Qed.
  Definition shown (t : tree) : Prop := good t /\ (t_concept t = None -> gap (t_syntax t)).
  Lemma okt_bind_pair t l r : shown t -> good l -> good r -> good (bind_pair t l r).
  Proof. intros [H G] Hl Hr. apply okt_branch; auto. apply okt_concept, H. Qed.
  Lemma okt_new_pair l r : good l -> good r -> good (new_pair l r).
  Proof. intros Hl Hr. apply okt_branch; auto; [|intros _]; exact I. Qed.
  Lemma okt_from_text s : good (from_text s).
  Proof. exact I. Qed.

  Lemma good_merge_into {K} {G : Good K} eqb (a b : list (K * tree)) :
    good a -> good b -> good (merge_into eqb a b).
  Proof.
    revert b. induction a as [|[k v] a IH]; cbn; intros b Ha Hb; [exact Hb|].
    apply good_cons in Ha. destruct Ha as [[H1 H2] H3].
    destruct (aget eqb k b).
    - destruct (key_eqb _ _); [auto|exact I].
    - apply IH; auto. apply good_aset; auto.
  Qed.
  Lemma good_merge {K} {G : Good K} eqb (a b : list (K * tree)) :
    good a -> good b -> good (consistent_merge eqb a b).
  Proof. intros. unfold consistent_merge. destruct (Nat.ltb _ _); apply good_merge_into; auto. Qed.
  Lemma good_es_merge a b : good a -> good b -> good (es_merge a b).
  Proof.
    intros [A1 A2] [B1 B2]. unfold es_merge.
    pose proof (good_merge key_eqb _ _ A1 B1) as X. pose proof (good_merge cid_eqb _ _ A2 B2) as Y.
    destruct (consistent_merge key_eqb _ _); [|exact I].
    destruct (consistent_merge cid_eqb _ _); [|exact I]. split; assumption.
  Qed.
  Lemma good_single {K} {G : Good K} (k : K) (t : tree) : good k -> good t -> good [(k, t)].
  Proof. intros H1 H2. apply good_cons. split; [split; assumption|apply good_nil]. Qed.
  Lemma good_check_example e g : good e -> good g -> good (check_example e g).
  Proof.
    revert g. induction e as [s c k|s c l IHl r IHr fv bv]; intros [s' c' k'|s' c' l' r' fv' bv'] He Hg;
      cbn.
    - destruct (match k' with LVariable => true | _ => false end).
      + split; [apply good_single; [exact I|exact He]|apply good_nil].
      + destruct c as [id|].
        * destruct (match k with LVariable => true | _ => false end).
          -- split; [apply good_nil|apply good_single; [exact He|exact Hg]].
          -- destruct (key_eqb _ _); [split; apply good_nil|exact I].
        * destruct (key_eqb _ _); [split; apply good_nil|exact I].
    - exact I.
    - destruct (match k' with LVariable => true | _ => false end); [|exact I].
      split; [apply good_single; [exact I|exact He]|apply good_nil].
    - destruct He as (_ & A & B & _), Hg as (_ & A' & B' & _).
      specialize (IHl l' A A'). specialize (IHr r' B B').
      destruct (check_example l l'); [|exact I]. destruct (check_example r r'); [|exact I].
      apply good_es_merge; assumption.
  Qed.
  Lemma good_subst_keys t subs : good t -> good subs -> good (subst_keys t subs).
  Proof.
    intros Ht Hs. induction t as [s c k|s c l IHl r IHr fv bv]; cbn [subst_keys].
    - pose proof (good_aget_list key_eqb (t_key (TLeaf s c k)) subs Hs) as A.
      destruct (aget _ _ _); [exact A|exact Ht].
    - pose proof (good_aget_list key_eqb (t_key (TBranch s c l r fv bv)) subs Hs) as A.
      destruct (aget _ _ _); [exact A|].
      destruct Ht as (Hc & Hl & Hr & Hs'). split; [exact Hc|]. split; [apply IHl|split; [apply IHr|]]; auto.
  Qed.
  Lemma good_ml_get (ml : mask_list) c : good ml -> good (ml_get ml c).
  Proof.
    induction ml as [|m ml IH]; cbn; intros H; [exact I|].
    apply good_cons in H. destruct H as [H1 H2].
    pose proof (good_aget_list cid_eqb c m H1) as A.
    destruct (aget cid_eqb c m); [exact A|auto].
  Qed.
  Lemma good_ml_push (ml : mask_list) m : good ml -> good m -> good (ml_push ml m).
  Proof.
    intros H1 H2. unfold ml_push. destruct (ml_contains ml m); [exact I|].
    apply good_cons. split; assumption.
  Qed.
  Lemma good_concept_list t : good t -> good (concept_list t).
  Proof.
    intros H. apply okt_concept in H. unfold concept_list.
    destruct (t_concept t); [apply good_cons; split; [exact H|]|]; apply good_nil.
  Qed.
  Lemma good_merge_masks a b : good a -> good b -> good (merge_masks a b).
  Proof.
    revert b. induction a as [|[k v] a IH]; cbn; intros b Ha Hb; [exact Hb|].
    apply good_cons in Ha. destruct Ha as [[H1 H2] H3].
    destruct (aget cid_eqb k b).
    - destruct (key_eqb _ _); [auto|exact I].
    - apply IH; auto. apply good_aset; auto.
  Qed.

  (** ** Changing a delta *)
  Lemma good_insert_delta chk site id cd l :
    good l -> good id -> good cd -> ok (insert_delta chk site id cd l).
  Proof.
    intros (L1 & L2 & L3) Hi Hc. unfold insert_delta.
    destruct (aget cid_eqb id (d_concept l)) as [ds|] eqn:E.
    - assert (Hds : good ds).
      { apply (aget_in _ cid_eqb_spec) in E. apply (L2 _ E). }
      repeat match goal with
      | |- ok (match ?x with _ => _ end) => destruct x
      end; try (apply ok_bad; discriminate);
      apply ok_Ok; (split; [exact L1|split; [|exact L3]]); cbn;
        (apply good_aset; [exact Hi| |exact L2]);
        (apply good_app; [exact Hds|apply good_cons; split; [exact Hc|apply good_nil]]).
    - apply ok_Ok. split; [exact L1|split; [|exact L3]]. cbn.
      apply good_aset; [exact Hi| |exact L2]. apply good_cons. split; [exact Hc|apply good_nil].
  Qed.
  Lemma good_insert_existing id cd l :
    good l -> good id -> good cd -> ok (insert_existing id cd l).
  Proof. apply good_insert_delta. Qed.
  Lemma ok_insert_new_layer nd l : good l -> good nd -> ok (insert_new nd l).
  Proof.
    intros Hl Hn. unfold insert_new. apply ok_obind.
    - apply good_insert_delta; [exact Hl|apply PU|exact Hn].
    - intros a Ha. apply ok_Ok. split; [apply PU|exact Ha].
  Qed.
  Lemma ok_insert_new nd d id d' :
    good d -> good nd -> delta_insert_new nd d = Ok (id, d') -> good d' /\ P id.
  Proof.
    destruct d as [o i]. cbn. intros Hd Hn E. apply obind_ok in E.
    destruct E as ([id' o'] & E & E'). injection E' as <- <-.
    unfold good, good_delta in Hd. cbn in Hd. apply good_cons in Hd. destruct Hd as [H1 H2].
    destruct (ok_insert_new_layer nd o H1 Hn _ E) as [X Y]. split; [|exact X].
    unfold good, good_delta. cbn. apply good_cons. split; assumption.
  Qed.
  Lemma good_spawn d : good d -> good (delta_spawn d).
  Proof.
    unfold good, good_delta, delta_spawn. destruct d as [o i]. cbn. intros H.
    apply good_cons. split; [|exact H]. split; [apply good_nil|split; apply good_nil].
  Qed.
  Ltac lb := apply ok_obind;
    [apply good_insert_existing; cbn; auto|let l := fresh "l" in let H := fresh "L" in intros l H].
  Lemma ok_update_new nd l : good l -> good nd -> ok (update_new nd l).
  Proof.
    intros Hl Hn. unfold update_new. apply ok_obind; [apply ok_insert_new_layer; auto|].
    intros [id l1] [Hi Hl1]. cbn in Hi, Hl1.
    destruct nd as [s|x y| | |x y cc|x y cc|x cc|x]; cbn in Hn.
    - assert (A : good (aget text_eqb s (d_string l1))) by apply good_aget_list, Hl1.
      destruct Hl1 as (X1 & X2 & X3).
      destruct (aget text_eqb s (d_string l1)) as [[]|]; try (apply ok_bad; discriminate);
        (apply ok_Ok; split; [exact Hi|split; [|split; assumption]]); cbn;
        (apply good_aset; [exact I| |exact X1]); cbn; auto.
    - destruct Hn as [N1 N2]. lb. lb. apply ok_Ok. split; assumption.
    - apply ok_Ok. split; assumption.
    - apply ok_Ok. split; assumption.
    - destruct Hn as [N1 N2]. lb. lb. apply ok_Ok. split; assumption.
    - destruct Hn as [N1 N2]. lb. lb. apply ok_Ok. split; assumption.
    - lb. apply ok_Ok. split; assumption.
    - lb. apply ok_Ok. split; assumption.
  Qed.
  Lemma good_push_order id d l : good l -> good id -> good d -> good (push_order id d l).
  Proof.
    intros (L1 & L2 & L3) Hi Hd. split; [exact L1|split; [exact L2|]]. cbn.
    apply good_app; [exact L3|]. apply good_cons. split; [split; assumption|apply good_nil].
  Qed.
  Lemma ok_update_layer d l : good l -> good d -> ok (update_layer d l).
  Proof.
    intros Hl Hd. unfold update_layer. apply ok_obind.
    2: { intros [id l'] [H1 H2]. apply ok_Ok. split; [exact H1|]. apply good_push_order; auto. }
    destruct d as [nd|c ch|u ch|id].
    - apply ok_update_new; auto.
    - pose proof Hd as [Hc Hch]. lb. apply ok_obind.
      { destruct ch as [[]|[] []|[]]; cbn [Delta.before].
        - apply ok_Ok. exact L.
        - destruct Hch as [[] []]. lb. apply good_insert_existing; cbn; auto.
        - destruct Hch as []. lb. apply good_insert_existing; cbn; auto. }
      intros l1 L1. apply ok_obind.
      { destruct ch as [[]|[] []|[]]; cbn [Delta.after].
        - destruct Hch as []. lb. apply good_insert_existing; cbn; auto.
        - destruct Hch as [[] []]. lb. apply good_insert_existing; cbn; auto.
        - apply ok_Ok. exact L1. }
      intros l2 L2. apply ok_Ok. split; assumption.
    - pose proof Hd as [Hc Hch]. lb. apply ok_obind.
      { destruct ch; cbn [Delta.before]; [apply ok_Ok; exact L| |]; apply good_insert_existing; cbn; auto;
          apply Hch. }
      intros l1 L1. apply ok_obind.
      { destruct ch; cbn [Delta.after]; [| |apply ok_Ok; exact L1]; apply good_insert_existing; cbn; auto;
          apply Hch. }
      intros l2 L2. apply ok_Ok. split; assumption.
    - lb. apply ok_Ok. split; assumption.
  Qed.
  Lemma ok_delta_update d nd : good nd -> good d -> ok (delta_update d nd).
  Proof.
    destruct nd as [o i]. cbn. intros Hd Hn. unfold good, good_delta in Hd. cbn in Hd.
    apply good_cons in Hd. destruct Hd as [H1 H2].
    apply ok_obind; [apply ok_update_layer; auto|]. intros [id o'] [X Y]. apply ok_Ok.
    split; [exact X|]. unfold good, good_delta. cbn. apply good_cons. split; assumption.
  Qed.

  (** ** Searches *)
  #[local] Instance good_state : Good sstate :=
    fun s => good (s_red s) /\ good (s_syn s) /\ good (s_inf s).
  #[local] Instance good_cache : Good cache :=
    fun k => good (k_red k) /\ good (k_syn k) /\ good (k_inf k).
  #[local] Instance good_env : Good env := fun e => good (e_delta e) /\ good (e_mask e).
  Definition sok {A} {G : Good A} (m : SM A) : Prop :=
    forall s a s', good s -> m s = Ok (a, s') -> good s' /\ good a.

  Lemma sok_ret {A} {G : Good A} (a : A) : good a -> sok (sret a).
  Proof. intros H s x s' Hs E. injection E as <- <-. split; assumption. Qed.
  Lemma sok_bind {A B} {G : Good A} {H : Good B} (m : SM A) (f : A -> SM B) :
    sok m -> (forall a, good a -> sok (f a)) -> sok (sbind m f).
  Proof.
    intros Hm Hf s b s' Hs E. unfold sbind in E. apply obind_ok in E.
    destruct E as ([a s1] & E1 & E2). destruct (Hm _ _ _ Hs E1) as [H1 H2].
    apply (Hf a H2 _ _ _ H1 E2).
  Qed.
  Lemma sok_lift {A} {G : Good A} (m : outcome A) : ok m -> sok (slift m).
  Proof.
    intros Hm s a s' Hs E. unfold slift in E. apply obind_ok in E.
    destruct E as (b & E1 & E2). injection E2 as <- <-. split; [exact Hs|apply Hm, E1].
  Qed.
  Lemma sok_smap {A B} {G : Good A} {H : Good B} (f : A -> B) (m : SM A) :
    sok m -> (forall a, good a -> good (f a)) -> sok (smap f m).
  Proof. intros Hm Hf. apply sok_bind; [exact Hm|]. intros a Ha. apply sok_ret; auto. Qed.
  Lemma sok_and_then {A B} {G : Good A} {H : Good B} (m : SM (option A)) (f : A -> SM (option B)) :
    sok m -> (forall a, good a -> sok (f a)) -> sok (and_then m f).
  Proof.
    intros Hm Hf. apply sok_bind; [exact Hm|]. intros [a|] Ha; [apply Hf; exact Ha|].
    apply sok_ret. exact I.
  Qed.
  Lemma sok_or_else {A} {G : Good A} (m1 m2 : SM (option A)) :
    sok m1 -> sok m2 -> sok (or_else m1 m2).
  Proof.
    intros H1 H2. apply sok_bind; [exact H1|]. intros [a|] Ha; [apply sok_ret; exact Ha|exact H2].
  Qed.
  Lemma sok_opt_then {A B} {G : Good A} {H : Good B} (o : option A) (f : A -> SM (option B)) :
    good o -> (forall a, good a -> sok (f a)) -> sok (opt_then o f).
  Proof. intros Ho Hf. destruct o; [apply Hf; exact Ho|apply sok_ret; exact I]. Qed.
  Lemma sok_find_map {A B} {G : Good A} {H : Good B} (f : A -> SM (option B)) l :
    good l -> (forall a, good a -> sok (f a)) -> sok (find_map f l).
  Proof.
    intros Hl Hf. induction l as [|a l IH]; [apply sok_ret; exact I|].
    apply good_cons in Hl. destruct Hl as [H1 H2]. cbn.
    apply sok_or_else; [apply Hf; exact H1|apply IH, H2].
  Qed.
  Lemma sok_fresh : sok fresh_tick.
  Proof. intros s a s' (H1 & H2 & H3) E. injection E as <- <-. split; [split; auto|exact I]. Qed.
  Lemma sok_shuffle {A} {G : Good A} (l : list A) : good l -> sok (shuffle cfg l).
  Proof.
    intros H. apply sok_bind; [apply sok_fresh|]. intros t _. apply sok_ret.
    apply good_ord. exact H.
  Qed.
  Lemma sok_new_red : sok new_red_cache.
  Proof.
    intros s a s' (H1 & H2 & H3) E. injection E as <- <-. split; [|exact I].
    split; [|split; assumption]. cbn. apply good_app; [exact H1|].
    apply good_cons. split; apply good_nil.
  Qed.
  Lemma sok_new_syn : sok new_syn_cache.
  Proof.
    intros s a s' (H1 & H2 & H3) E. injection E as <- <-. split; [|exact I].
    split; [exact H1|split; [|exact H3]]. cbn. apply good_app; [exact H2|].
    apply good_cons. split; apply good_nil.
  Qed.
  Lemma good_nth {A} {G : Good A} n (l : list A) d : good l -> good d -> good (nth n l d).
  Proof. intros Hl Hd. destruct (nth_in_or_default n l d) as [H| ->]; auto. Qed.
  Lemma good_upd_nth {A} {G : Good A} n (f : A -> A) l :
    (forall a, good a -> good (f a)) -> good l -> good (upd_nth n f l).
  Proof.
    intros Hf. revert n. induction l as [|a l IH]; intros [|n] H; cbn; try exact H;
      apply good_cons in H; destruct H; apply good_cons; split; auto.
  Qed.
  Lemma sok_cached_reduction e t : sok (cached_reduction e t).
  Proof.
    intros s a s' Hs E. injection E as <- <-. split; [exact Hs|].
    destruct Hs as (H1 & _). induction (e_reds e) as [|h hs IH]; cbn; [exact I|].
    pose proof (good_aget_list key_eqb (t_key t) (nth h (s_red s) [])
                  (good_nth _ _ _ H1 good_nil)) as A.
    destruct (aget _ _ _); [exact A|exact IH].
  Qed.
  Lemma sok_insert_reduction e t r : good r -> sok (insert_reduction e t r).
  Proof.
    intros Hr s a s' Hs E. injection E as <- <-. split; [|exact I].
    destruct (_ && _); [|exact Hs]. destruct Hs as (H1 & H2 & H3).
    split; [|split; assumption]. cbn. apply good_upd_nth; [|exact H1].
    intros m Hm. apply good_aset; [exact I|exact Hr|exact Hm].
  Qed.
  Lemma sok_cached_syntax e c : sok (cached_syntax e c).
  Proof.
    intros s a s' Hs E. injection E as <- <-. split; [exact Hs|]. destruct Hs as (_ & H2 & _).
    apply good_aget_list. apply good_nth; [exact H2|apply good_nil].
  Qed.
  Lemma sok_insert_syntax e m t : good m -> good t -> sok (insert_syntax e m t).
  Proof.
    intros Hm Ht s a s' Hs E. injection E as <- <-. split; [|exact I].
    destruct (m_anonymous m); [exact Hs|]. destruct Hs as (H1 & H2 & H3).
    split; [exact H1|]. split; [|exact H3]. cbn. apply good_upd_nth; [|exact H2].
    intros l Hl. apply good_aset; [apply ok_m_id, Hm|exact Ht|exact Hl].
  Qed.
  Lemma sok_cached_inference c : sok (cached_inference c).
  Proof.
    intros s a s' Hs E. injection E as <- <-. split; [exact Hs|]. destruct Hs as (_ & _ & H3).
    apply good_aget_list. exact H3.
  Qed.
  Lemma sok_insert_inference c r : P c -> good r -> sok (insert_inference c r).
  Proof.
    intros Hc Hr s a s' Hs E. injection E as <- <-. split; [|exact I]. destruct Hs as (H1 & H2 & H3).
    split; [exact H1|]. split; [exact H2|]. apply good_aset; auto.
  Qed.
  Lemma sok_panic {A} {G : Good A} x : sok (slift (Panic x) : SM A).
  Proof. intros s a s' _ E. discriminate. Qed.
  Lemma sok_oof {A} {G : Good A} : sok (out_of_fuel : SM A).
  Proof. intros s a s' _ E. discriminate. Qed.

  Definition good_ops (o : ops) : Prop :=
    (forall e t, good e -> good t -> sok (o_reduce o e t)) /\
    (forall e c, good e -> P c -> sok (o_to_ast o e c)) /\
    (forall e t, good e -> good t -> sok (o_assoc o e t)) /\
    (forall e t, good e -> good t -> sok (o_expand o e t)) /\
    (forall e t w, good e -> good t -> sok (o_nf o e t w)) /\
    (forall e l r, good e -> good l -> good r -> sok (o_evidence o e l r)) /\
    (forall R (G : Good R) e g eqs k, good e -> good g -> good eqs ->
       (forall s, good s -> sok (k s)) -> sok (o_examples o (R := R) e g eqs k)).

  Variable fuel : nat.

  Lemma sok_read e c : good e -> P c -> sok (read cfg snap e c).
  Proof. intros [H _] Hc. apply sok_lift. eauto with rng. Qed.
  Lemma sok_concrete_id e cc : good e -> sok (concrete_id cfg snap e cc).
  Proof. intros [H _]. apply sok_lift. apply ok_concrete_id; auto. Qed.
  Lemma sok_concrete_type e c : sok (concrete_type cfg snap e c).
  Proof. apply sok_lift. apply ok_opt_any. Qed.
  Lemma sok_concrete_type_of_ast e t : sok (concrete_type_of_ast cfg snap e t).
  Proof.
    unfold concrete_type_of_ast. destruct (t_concept t); [apply sok_concrete_type|].
    apply sok_ret. exact I.
  Qed.
  Lemma sok_is_concrete_type e cc c : P c -> sok (is_concrete_type cfg snap e cc c).
  Proof.
    intros Hc. apply sok_bind; [apply sok_concrete_type|]. intros ty _. apply sok_ret.
    destruct (opt_cct_eqb _ _); [exact Hc|exact I].
  Qed.
  Lemma sok_composition_of e c : good e -> P c -> sok (composition_of_concept cfg snap e c).
  Proof. intros He Hc. apply sok_smap; [apply sok_read; auto|]. apply ok_m_composition. Qed.
  Lemma sok_is_free e c : good e -> P c -> sok (is_free_variable cfg snap e c).
  Proof. intros He Hc. apply sok_bind; [apply sok_read; auto|]. intros m _. apply sok_ret. exact I. Qed.
  Lemma sok_is_leaf_variable e c : good e -> P c -> sok (is_leaf_variable_concept cfg snap e c).
  Proof.
    intros He Hc. apply sok_bind; [apply sok_is_free; auto|]. intros [] _.
    - apply sok_bind; [apply sok_composition_of; auto|]. intros x _. apply sok_ret. exact I.
    - apply sok_ret. exact I.
  Qed.
  Lemma sok_contains_bound e t :
    good e -> good t -> sok (contains_bound_variable_syntax cfg snap e t).
  Proof.
    intros He. induction t as [s c k|s c l IHl r IHr fv bv]; intros Ht; cbn.
    - destruct (smem _ _ _); [apply sok_ret; exact I|]. destruct c; [|apply sok_ret; exact I].
      apply sok_smap; [apply sok_read; auto|]. intros; exact I.
    - destruct Ht as (Hc & Hl & Hr & Hgap).
      apply sok_bind; [auto|]. intros [] _; [apply sok_ret; exact I|].
      apply sok_bind; [auto|]. intros [] _; [apply sok_ret; exact I|].
      destruct (smem _ _ _); [apply sok_ret; exact I|]. destruct c; [|apply sok_ret; exact I].
      apply sok_smap; [apply sok_read; auto|]. intros; exact I.
  Qed.
  Lemma sok_spawn e h d : good e -> good d -> sok (spawn e h d).
  Proof.
    intros [H1 H2] Hd. apply sok_bind; [apply sok_new_syn|]. intros sy _. apply sok_ret.
    split; assumption.
  Qed.
  Lemma good_with_mask e ml : good e -> good ml -> good (with_mask e ml).
  Proof. intros [H1 H2] H. split; assumption. Qed.
  Lemma good_with_eval e k : good e -> good (with_evaluating e k).
  Proof. intros [H1 H2]. split; assumption. Qed.
  Lemma good_with_infer e c : good e -> good (with_inferring e c).
  Proof. intros [H1 H2]. destruct c; split; assumption. Qed.

  Lemma sok_check_gen e t g :
    good e -> good t -> P g -> sok (check_generalisation cfg snap e t g).
  Proof.
    intros He. revert g. induction t as [s c k|s c l IHl r IHr fv bv]; intros g Ht Hg; cbn.
    - apply sok_bind; [apply sok_is_free; auto|]. intros f _.
      destruct (negb f); [apply sok_ret; exact I|]. destruct (smem _ _ _); [apply sok_ret; exact I|].
      apply sok_bind.
      { destruct c; [|apply sok_ret; exact I].
        apply sok_smap; [apply sok_read; auto|]. intros; exact I. }
      intros [] _; [apply sok_ret; exact I|].
      apply sok_bind; [apply sok_composition_of; auto|]. intros [[gl gr]|] Hc; apply sok_ret; [exact I|].
      apply good_single; [exact Hg|exact Ht].
    - apply sok_bind; [apply sok_is_free; auto|]. intros f _.
      destruct (negb f); [apply sok_ret; exact I|]. destruct (smem _ _ _); [apply sok_ret; exact I|].
      pose proof Ht as (Hc & Hl & Hr & Hgap).
      apply sok_bind.
      { destruct c; [|apply sok_ret; exact I].
        apply sok_smap; [apply sok_read; auto|]. intros; exact I. }
      intros [] _; [apply sok_ret; exact I|].
      apply sok_bind; [apply sok_composition_of; auto|]. intros [[gl gr]|] Hcomp.
      2: { apply sok_ret. apply good_single; [exact Hg|exact Ht]. }
      destruct Hcomp as [Hgl Hgr]. cbn in Hgl, Hgr.
      apply sok_bind; [apply sok_is_free; auto|]. intros fl _.
      apply sok_bind; [apply sok_is_free; auto|]. intros fr _.
      destruct fl, fr.
      + apply sok_bind; [auto|]. intros lm Hlm. apply sok_bind; [auto|]. intros rm Hrm.
        apply sok_ret. destruct lm; [|exact I]. destruct rm; [|exact I].
        apply good_merge_masks; assumption.
      + destruct (option_eqb _ _ _); [auto|apply sok_ret; exact I].
      + destruct (option_eqb _ _ _); [auto|apply sok_ret; exact I].
      + apply sok_ret. destruct (_ && _); [apply good_nil|exact I].
  Qed.
  Lemma sok_add_compositions e h gs acc :
    good e -> good gs -> good acc -> sok (add_compositions cfg snap e h gs acc).
  Proof.
    intros He. revert acc. induction gs as [|g gs IH]; cbn; intros acc Hg Ha; [apply sok_ret; exact Ha|].
    apply good_cons in Hg. destruct Hg as [H1 H2].
    apply sok_bind; [apply sok_read; auto|]. intros m Hm. apply IH; [exact H2|].
    apply good_sextend; [exact Ha|]. apply ok_m_iter_ids. exact Hm.
  Qed.
  Lemma sok_find_gens e t : good e -> good t -> sok (find_generalisations cfg snap e t).
  Proof.
    intros He. induction t as [s c k|s c l IHl r IHr fv bv]; cbn; intros Ht.
    - apply sok_ret. apply good_nil.
    - destruct Ht as (_ & Hl & Hr & _).
      apply sok_bind; [apply sok_add_compositions; [auto|apply good_concept_list; auto|apply good_nil]|].
      intros a Ha.
      apply sok_bind; [apply sok_add_compositions; auto using good_concept_list|].
      intros b Hb.
      apply sok_bind; [auto|]. intros gl Hgl.
      apply sok_bind; [apply sok_add_compositions; auto|]. intros x Hx.
      apply sok_bind; [auto|]. intros gr Hgr. apply sok_add_compositions; auto.
  Qed.

  Section SearchStep.
    Variable o : ops.
    Hypothesis O : good_ops o.
    Let O1 := proj1 O.
    Let O2 := proj1 (proj2 O).
    Let O3 := proj1 (proj2 (proj2 O)).
    Let O4 := proj1 (proj2 (proj2 (proj2 O))).
    Let O5 := proj1 (proj2 (proj2 (proj2 (proj2 O)))).
    Let O6 := proj1 (proj2 (proj2 (proj2 (proj2 (proj2 O))))).
    Let O7 := proj2 (proj2 (proj2 (proj2 (proj2 (proj2 O))))).

    Ltac triv := apply sok_ret; exact I.
    Ltac sb := apply sok_bind; [|let a := fresh "a" in let H := fresh "H" in intros a H].

    Lemma sok_display_joint e l r : good e -> good l -> good r -> sok (display_joint o e l r).
    Proof.
      intros He Hl Hr. unfold display_joint. sb.
      - destruct (existsb _ _); [|triv]. pose proof (okt_exp l Hl) as X.
        destruct (t_exp l) as [[ll lr]|]; [|triv]. sb; [apply O3; [auto|apply X]|triv].
      - sb; [|triv].
        destruct (existsb _ _); [|triv]. pose proof (okt_exp r Hr) as X.
        destruct (t_exp r) as [[ll lr]|]; [|triv]. sb; [apply O3; [auto|apply X]|triv].
    Qed.
    Lemma joint_gap e l r st s st' : display_joint o e l r st = Ok (s, st') -> In c_space s.
    Proof.
      intros E. unfold display_joint in E. apply obind_ok in E. destruct E as ([a s1] & _ & E).
      apply obind_ok in E. destruct E as ([b s2] & _ & E). injection E as <- _.
      apply in_or_app. right. left. reflexivity.
    Qed.
    Lemma sok_joint e l r : good e -> good l -> good r -> @sok _ (fun s : text => In c_space s) (display_joint o e l r).
    Proof.
      intros He Hl Hr st s st' Hst E. split; [|exact (joint_gap _ _ _ _ _ _ E)].
      apply (sok_display_joint e l r He Hl Hr st s st' Hst E).
    Qed.
    Lemma sok_join e l r : good e -> good l -> good r -> sok (join o e l r).
    Proof.
      intros He Hl Hr. apply (@sok_bind _ _ (fun s : text => In c_space s)); [apply sok_joint; auto|]. intros s Hs. apply sok_ret.
      apply okt_bind_pair; auto. split; [apply okt_from_text|]. intros _. exact Hs.
    Qed.
    Lemma sok_comp_concept e l r :
      good e -> good l -> good r -> sok (composition_concept cfg snap e l r).
    Proof.
      intros He Hl Hr. unfold composition_concept. apply okt_concept in Hl, Hr.
      destruct (t_concept l); [|triv]. destruct (t_concept r); [|triv].
      sb; [apply sok_read; auto|]. apply sok_ret. apply ok_m_find. exact H.
    Qed.
    Lemma sok_bind_syntax e t c :
      good e -> good t -> P c -> sok (slift (bind_concept_to_syntax cfg snap (e_delta e) t c)).
    Proof. intros [He _] Ht Hc. apply sok_lift. apply ok_bind_syntax; auto. Qed.
    Lemma bound_concept d t c x : bind_concept_to_syntax cfg snap d t c = Ok x -> t_concept x <> None.
    Proof.
      intros E. unfold bind_concept_to_syntax in E. apply obind_ok in E. destruct E as (ty & _ & E).
      destruct (opt_cct_eqb _ _).
      - apply obind_ok in E. destruct E as (u & _ & E). injection E as <-. discriminate.
      - injection E as <-. destruct t; discriminate.
    Qed.
    Lemma sok_combine e l r : good e -> good l -> good r -> sok (combine_ast cfg snap o e l r).
    Proof.
      intros He Hl Hr. sb; [apply sok_comp_concept; auto|]. sb; [apply sok_join; auto|].
      destruct a; [apply sok_bind_syntax; auto|apply sok_ret; auto].
    Qed.
    Lemma sok_label e c : sok (slift (get_label cfg snap (e_delta e) fuel c)).
    Proof. apply sok_lift. intros [x|] _; exact I. Qed.
    Lemma sok_contract e l r :
      good e -> good l -> good r -> sok (contract_pair cfg snap fuel o e l r).
    Proof.
      intros He Hl Hr. sb; [apply sok_comp_concept; auto|].
      apply (@sok_bind _ _ shown).
      - destruct a.
        + sb; [apply sok_label|]. sb.
          * destruct a; [triv|apply sok_display_joint; auto].
          * intros st t st' Hst E. split; [exact (proj1 (sok_bind_syntax e _ c He (okt_from_text a0) H _ _ _ Hst E))|].
            split; [exact (proj2 (sok_bind_syntax e _ c He (okt_from_text a0) H _ _ _ Hst E))|].
            intros N. exfalso. apply obind_ok in E. destruct E as (x & E & E'). injection E' as <- _.
            exact (bound_concept _ _ _ _ E N).
        + apply (@sok_smap _ _ (fun s : text => In c_space s)); [apply sok_joint; auto|].
          intros s Hs. split; [apply okt_from_text|]. intros _. exact Hs.
      - intros t Ht. apply sok_ret. apply okt_bind_pair; auto.
    Qed.
    Lemma sok_substitute e t m :
      good e -> good t -> good m -> sok (substitute cfg snap fuel o e t m).
    Proof.
      intros He Ht Hm. induction t as [s c k|s c l IHl r IHr fv bv]; cbn.
      - assert (X : good (match c with Some c => aget cid_eqb c m | None => None end)).
        { destruct c; [apply good_aget_list; exact Hm|exact I]. }
        destruct (match c with Some _ => _ | None => None end); apply sok_ret; auto.
      - assert (X : good (match c with Some c => aget cid_eqb c m | None => None end)).
        { destruct c; [apply good_aget_list; exact Hm|exact I]. }
        destruct Ht as (Hc & Hl & Hr & Hgap).
        destruct (match c with Some _ => _ | None => None end); [apply sok_ret; exact X|].
        sb; [auto|]. sb; [auto|]. apply sok_contract; auto.
    Qed.
    Lemma sok_concrete_ast e cc : good e -> sok (concrete_ast cfg snap o e cc).
    Proof.
      intros He. apply sok_and_then; [apply sok_concrete_id; auto|]. intros c Hc.
      apply sok_smap; [apply O2; auto|]. intros; assumption.
    Qed.
    Lemma sok_get_assoc e t : good e -> good t -> sok (get_associativity cfg snap o e t).
    Proof.
      intros He Ht. sb; [apply sok_concrete_id; auto|]. destruct a; [|triv].
      sb; [apply O2; auto|]. sb; [apply sok_combine; auto|]. sb; [apply O1; auto|].
      sb; [|triv]. destruct a1 as [[]|]; [apply sok_concrete_type_of_ast|triv].
    Qed.
    Lemma sok_to_ast e c : good e -> P c -> sok (to_ast cfg snap fuel o e c).
    Proof.
      intros He Hc. unfold to_ast. pose proof (good_ml_get (e_mask e) c (proj2 He)) as X.
      destruct (ml_get _ _); [apply sok_ret; exact X|].
      sb; [apply sok_cached_syntax|]. destruct a; [apply sok_ret; exact H|].
      sb; [apply sok_read; auto|]. sb.
      { destruct (m_string _); [triv|apply sok_label]. }
      sb.
      - destruct a0; [apply sok_bind_syntax; auto; apply okt_from_text|].
        pose proof (ok_m_composition a H0) as C.
        destruct (m_composition a) as [[l r]|]; [|apply sok_ret, ok_leaf_syntax; exact H0].
        destruct C as [C1 C2].
        sb; [apply O2; auto|]. sb; [apply O2; auto|]. apply sok_combine; auto.
      - sb; [apply sok_insert_syntax; auto|]. apply sok_ret. exact H2.
    Qed.
    Lemma sok_expand e t : good e -> good t -> sok (expand cfg snap o e t).
    Proof.
      intros He Ht. unfold expand. pose proof (okt_concept t Ht) as C.
      pose proof (okt_exp t Ht) as X. destruct (t_concept t).
      - sb; [apply sok_composition_of; auto|]. destruct a as [[l r]|]; [|apply O2; auto].
        destruct H as [H1 H2].
        sb; [apply O2; auto|]. sb; [apply O4; auto|]. sb; [apply O2; auto|]. sb; [apply O4; auto|].
        apply sok_combine; auto.
      - destruct (t_exp t) as [[l r]|]; [|apply sok_ret; exact Ht]. destruct X as [X1 X2].
        sb; [apply O4; auto|]. sb; [apply O4; auto|]. apply sok_combine; auto.
    Qed.
    Lemma sok_normal_form e t w : good e -> good t -> sok (normal_form o e t w).
    Proof.
      intros He Ht. sb; [apply O1; auto|]. destruct a as [[t' w']|].
      - apply O5; [auto|apply H].
      - apply sok_ret. split; [exact Ht|destruct w; exact I].
    Qed.
    Lemma sok_rec_reduce e t : good e -> good t -> sok (recursively_reduce o e t).
    Proof. intros. apply O5; auto. Qed.
    Lemma sok_evidence e l r : good e -> good l -> good r -> sok (determine_evidence o e l r).
    Proof.
      intros He Hl Hr. apply sok_and_then; [apply O1; auto|]. intros [l' w] [H1 _].
      destruct (key_eqb _ _); [triv|]. apply sok_and_then; [apply O6; auto|]. intros; triv.
    Qed.
    Lemma sok_truth e l r : good e -> good l -> good r -> sok (determine_reduction_truth o e l r).
    Proof.
      intros He Hl Hr. unfold determine_reduction_truth.
      destruct (key_eqb _ _); [apply sok_ret; split; exact I|].
      sb; [apply O6; auto|]. sb; [apply O6; auto|].
      destruct a, a0; [apply sok_panic| | |]; apply sok_ret; cbn; auto; split; exact I.
    Qed.
    Lemma sok_compare_one e h t : good e -> good t -> sok (compare_one cfg snap o e h t).
    Proof.
      assert (N : good (@None cct, @None reason)) by (split; exact I).
      intros He Ht. unfold compare_one. destruct (smem _ _ _).
      - sb; [apply sok_cached_reduction|]. destruct a as [[[t' w]|]|].
        + sb; [apply sok_concrete_type_of_ast|]. apply sok_ret. split; [exact H0|exact I].
        + apply sok_ret. exact N.
        + apply sok_ret. exact N.
      - sb; [apply sok_spawn; [auto|apply He]|].
        sb; [apply sok_rec_reduce; [apply good_with_eval; auto|auto]|].
        destruct a0 as [t' w]. sb; [apply sok_concrete_type_of_ast|]. apply sok_ret.
        split; [exact H1|apply H0].
    Qed.
    Lemma sok_compare e x y : good e -> good x -> good y -> sok (Search.compare cfg snap o e x y).
    Proof.
      intros He Hx Hy. unfold Search.compare. destruct (key_eqb _ _); [apply sok_ret; split; exact I|].
      sb; [apply sok_concrete_id; auto|]. destruct a; [|apply sok_ret; split; exact I].
      sb; [apply O2; auto|]. do 4 (sb; [apply sok_combine; auto|]).
      sb; [apply sok_new_red|].
      sb; [apply sok_compare_one; auto|]. destruct a5.
      sb; [apply sok_compare_one; auto|]. destruct a5.
      sb; [|sb; [apply sok_lift, ok_any|apply sok_ret; split; exact I]].
      destruct o0 as [[]|]; destruct o2 as [[]|]; try apply sok_panic; triv.
    Qed.
    Lemma sok_right_branch e l rl rr :
      good e -> good l -> good rr ->
      sok (reduce_by_expanded_right_branch cfg snap o e l rl rr).
    Proof.
      intros He Hl Hrr. unfold reduce_by_expanded_right_branch.
      sb; [apply sok_concrete_type_of_ast|]. destruct a as [[]|]; try triv.
      - apply sok_and_then; [apply sok_truth; auto|]. intros [b w] _.
        apply sok_and_then; [apply sok_concrete_ast; auto|]. intros t Ht. apply sok_ret.
        split; [exact Ht|exact I].
      - sb; [apply sok_compare; auto|]. destruct a as [c cr].
        apply sok_and_then; [destruct c; try triv; apply sok_concrete_ast; auto|].
        intros t Ht. apply sok_ret. split; [exact Ht|exact I].
    Qed.
    Lemma sok_example e g ts : good e -> good g -> good ts -> sok (find_example o e g ts).
    Proof. intros He Hg Ht. apply O7; auto. intros s Hs. apply sok_ret. exact Hs. Qed.
    Lemma sok_equivalence e c : good e -> P c -> sok (equivalence_set cfg snap e c).
    Proof.
      intros He Hc. sb; [apply sok_read; auto|]. apply sok_ret.
      apply good_app; [apply ok_m_reduces_from; auto|].
      apply good_cons. split; [exact Hc|apply good_nil].
    Qed.
    Lemma good_one (c : cid) : P c -> good [c].
    Proof. intros H. apply good_cons. split; [exact H|apply good_nil]. Qed.
    Lemma sok_half e gen nongen eqs h :
      good e -> good gen -> good nongen -> good eqs ->
      sok (half_generalisation cfg snap o e gen nongen eqs h).
    Proof.
      intros He Hg Hn Heq. apply sok_find_map; [exact Heq|]. intros c Hc.
      sb; [apply sok_composition_of; auto|]. destruct a as [[l r]|]; [|triv].
      destruct H as [H1 H2]. cbn in H1, H2.
      assert (X : exists a b, match h with HLeft => (l, r) | HRight => (r, l) end = (a, b) /\ P a /\ P b).
      { destruct h; eauto. }
      destruct X as (x & y & -> & Px & Py).
      destruct (negb _).
      - sb; [apply sok_read; auto|]. destruct (m_free a); [|triv].
        apply sok_and_then; [apply sok_example; auto using good_one|]. intros s Hs.
        apply sok_ret. apply good_es_merge; [exact Hs|].
        split; [apply good_nil|apply good_single; auto].
      - apply sok_or_else; [apply sok_example; auto using good_one|].
        apply sok_opt_then; [apply okt_concept, Hn|]. intros nid Hnid.
        apply sok_opt_then.
        { destruct h; destruct (cid_eqb _ _); try exact I; [exact H2|exact H1]. }
        intros ex Hex. sb; [apply O2; auto|].
        pose proof (good_check_example _ _ H Hg) as CE. destruct (check_example _ _).
        + apply sok_ret. exact CE.
        + sb; [apply sok_read; auto|]. apply sok_example; auto. apply good_cons.
          split; [exact Hex|]. apply ok_m_reduces_from. exact H0.
    Qed.
    Lemma sok_both e l r el er :
      good e -> good l -> good r -> P el -> P er ->
      sok (example_of_both cfg snap fuel o e l r el er).
    Proof.
      intros He Hl Hr Pl Pr. sb; [apply sok_equivalence; auto|].
      apply O7; auto. intros lex Hlex.
      sb; [apply sok_substitute; [auto|apply good_subst_keys; [auto|apply Hlex]|apply Hlex]|].
      sb; [apply sok_equivalence; auto|]. sb; [apply sok_contains_bound; auto|].
      destruct a2.
      - apply O7; auto. intros rex Hrex. apply sok_ret. apply good_es_merge; auto.
      - sb; [apply sok_rec_reduce; auto|]. destruct a2 as [nf w]. apply sok_ret.
        destruct (t_concept nf); [|exact I]. destruct (smem _ _ _); [exact Hlex|exact I].
    Qed.
    Lemma sok_branched {R} {G : Good R} e l r eqs k :
      good e -> good l -> good r -> good eqs -> (forall s, good s -> sok (k s)) ->
      sok (branched_examples cfg snap fuel o (R := R) e l r eqs k).
    Proof.
      intros He Hl Hr Heq Hk. unfold branched_examples.
      sb; [apply sok_contains_bound; auto|]. sb; [apply sok_contains_bound; auto|].
      destruct a, a0; [| | |triv].
      - apply sok_find_map; [exact Heq|]. intros c Hc. sb; [apply sok_composition_of; auto|].
        destruct a as [[el er]|]; [|triv]. destruct H1 as [P1 P2].
        apply sok_and_then; [apply sok_both; auto|exact Hk].
      - apply sok_and_then; [apply sok_half; auto|exact Hk].
      - apply sok_and_then; [apply sok_half; auto|exact Hk].
    Qed.
    Lemma sok_find_examples {R} {G : Good R} e g eqs k :
      good e -> good g -> good eqs -> (forall s, good s -> sok (k s)) ->
      sok (find_examples cfg snap fuel o (R := R) e g eqs k).
    Proof.
      intros He Hg Heq Hk. unfold find_examples. pose proof (okt_exp g Hg) as X.
      destruct (t_exp g) as [[l r]|]; [destruct X; apply sok_branched; auto|].
      sb.
      { destruct (dbg cfg); [|triv]. sb; [apply sok_contains_bound; auto|].
        apply sok_lift, ok_any. }
      apply sok_find_map; [exact Heq|]. intros c Hc. sb; [apply O2; auto|]. apply Hk.
      split; [apply good_single; [exact I|exact H0]|apply good_nil].
    Qed.
    Lemma good_insert_new n d id d' :
      good d -> good n -> delta_insert_new n d = Ok (id, d') -> good d' /\ P id.
    Proof. apply ok_insert_new. Qed.
    Lemma sok_inferred e t :
      good e -> good t -> sok (find_examples_of_inferred_reduction cfg snap fuel o e t).
    Proof.
      intros He Ht. apply sok_and_then; [apply sok_concrete_id; auto|]. intros imp Himp.
      apply sok_and_then; [apply sok_concrete_ast; auto|]. intros red Hred.
      assert (NB : forall d, good d -> sok (slift (delta_insert_new NBoundVariable d))).
      { intros d Hd. apply sok_lift. intros [id d'] E.
        apply good_insert_new in E; [split; apply E|exact Hd|exact I]. }
      sb; [apply NB, good_spawn, He|]. destruct a as [v1 d1]. destruct H as [Hv1 Hd1].
      sb; [apply NB, Hd1|]. destruct a as [v2 d2]. destruct H as [Hv2 Hd2].
      sb; [apply NB, Hd2|]. destruct a as [v3 d3]. destruct H as [Hv3 Hd3].
      cbn in Hv1, Hv2, Hd3.
      sb; [apply sok_new_red|]. sb; [apply sok_spawn; auto|].
      pose proof (good_with_infer a0 (t_concept t) H0) as He'.
      set (e' := with_inferring a0 (t_concept t)) in *.
      sb; [apply O2; auto|]. sb; [apply sok_concrete_id; auto|].
      sb; [apply sok_lift; destruct a2; [apply ok_Ok; exact H2|apply ok_bad; discriminate]|].
      sb; [apply sok_equivalence; auto|].
      apply O7; auto.
      { repeat apply okt_new_pair; auto; cbn; auto. }
      intros s Hs. apply sok_opt_then; [apply good_aget_list, Hs|]. intros cond Hcond.
      sb; [apply sok_substitute; auto; apply Hs|].
      sb; [apply sok_rec_reduce; auto|]. destruct a6 as [nf why]. destruct H6 as [H6 _].
      apply sok_opt_then; [apply okt_concept, H6|]. intros c Hc.
      apply sok_and_then; [apply sok_is_concrete_type; auto|]. intros c' _.
      apply sok_opt_then; [apply good_aget_list, Hs|]. intros res Hres.
      sb; [apply sok_substitute; auto; apply Hs|]. apply sok_ret. split; [exact H7|exact I].
    Qed.
    Lemma sok_infer e m : good e -> good m -> sok (infer_reduction cfg snap fuel o e m).
    Proof.
      intros He Hm. apply sok_and_then; [apply sok_concrete_id; auto|]. intros imp Himp.
      apply sok_or_else.
      - apply sok_opt_then; [apply ok_m_find, Hm|]. intros comp Hcomp.
        sb; [apply sok_read; auto|].
        apply sok_find_map; [apply ok_m_iter_hand; exact H|]. intros [cond rule] [H1 H2].
        sb; [apply O2; auto|]. apply sok_and_then; [apply O1; auto|]. intros [c' w] [H3 _].
        apply sok_opt_then; [apply okt_concept, H3|]. intros x Hx.
        apply sok_and_then; [apply sok_is_concrete_type; auto|]. intros x' Hx'.
        sb; [apply O2; auto|]. sb; [apply O2; auto|]. apply sok_ret. split; [exact H4|exact I].
      - sb; [apply sok_cached_inference|]. destruct a; [apply sok_ret; exact H|].
        pose proof (ok_m_id m Hm) as Pm.
        sb; [apply O2; auto|]. sb; [apply sok_inferred; auto|].
        sb; [apply sok_insert_inference; auto|]. apply sok_ret. exact H1.
    Qed.
    Lemma sok_reduce_concept e c : good e -> P c -> sok (reduce_concept cfg snap fuel o e c).
    Proof.
      intros He Hc. sb; [apply sok_read; auto|]. apply sok_or_else.
      - destruct (smem _ _ _); [triv|apply sok_infer; auto].
      - apply sok_opt_then; [apply ok_m_reduction, H|]. intros n Hn.
        sb; [apply sok_is_leaf_variable; auto|]. apply sok_and_then.
        + destruct a0; [apply sok_ret, good_ml_get, He|].
          apply sok_smap; [apply O2; auto|]. intros; assumption.
        + intros t Ht. apply sok_ret. split; [exact Ht|exact I].
    Qed.
    Lemma sok_left_branch e ll lr r :
      good e -> good r -> sok (reduce_by_expanded_left_branch cfg snap o e ll lr r).
    Proof.
      intros He Hr. sb; [apply sok_concrete_type_of_ast|]. destruct (_ && _); [|triv].
      sb; [apply sok_concrete_id; auto|].
      sb; [apply sok_lift; destruct a0; [apply ok_Ok; exact H0|apply ok_bad; discriminate]|].
      sb; [apply sok_read; auto|]. apply sok_and_then.
      - apply sok_example; auto. apply ok_m_reduces_from. exact H2.
      - intros s Hs. sb; [apply O2; auto|]. apply sok_ret. split; [exact H3|exact I].
    Qed.
    Lemma sok_partial p : sok (partial_reason cfg p).
    Proof.
      intros s a s' Hs E. unfold partial_reason, sbind, shuffle, fresh_tick in E. cbn in E.
      injection E as <- <-. split; [exact Hs|exact I].
    Qed.
    Lemma sok_try_rule e h t g : good e -> good t -> P g -> sok (try_rule cfg snap fuel o e h t g).
    Proof.
      intros He Ht Hg. sb; [apply sok_check_gen; auto|]. destruct a as [[|p m]|]; [triv| |triv].
      sb; [apply sok_spawn; [auto|apply He]|].
      apply sok_opt_then; [apply good_ml_push; [apply H0|exact H]|]. intros ml Hml.
      pose proof (good_with_mask _ _ H0 Hml) as He'.
      apply sok_and_then; [apply sok_reduce_concept; auto|]. intros [t' w] [H1 _].
      sb; [apply sok_substitute; auto|]. sb; [apply O2; auto|]. apply sok_ret.
      split; [exact H2|exact I].
    Qed.
    Lemma sok_rec_pair e l r :
      good e -> good l -> good r -> sok (recursively_reduce_pair cfg snap fuel o e l r).
    Proof.
      intros He Hl Hr. unfold recursively_reduce_pair.
      sb; [apply O1; auto|]. sb; [apply O1; auto|]. sb; [apply sok_new_red|].
      assert (M : forall t, good t -> good (match match t_concept t with Some c => ml_get (e_mask e) c
                  | None => None end with Some t' => t' | None => t end)).
      { intros t Ht. destruct (t_concept t); [|exact Ht].
        pose proof (good_ml_get (e_mask e) c (proj2 He)) as X. destruct (ml_get _ _); auto. }
      destruct a as [[lt lw]|], a0 as [[rt rw]|].
      - destruct H as [H _], H0 as [H0 _].
        sb; [apply sok_contract; auto|]. sb; [apply sok_partial|]. apply sok_ret. split; [exact H2|exact I].
      - destruct H as [H _].
        sb; [apply sok_contract; auto|]. sb; [apply sok_partial|]. apply sok_ret. split; [exact H2|exact I].
      - destruct H0 as [H0 _].
        sb; [apply sok_contract; auto|]. sb; [apply sok_partial|]. apply sok_ret. split; [exact H2|exact I].
      - sb; [apply sok_contract; auto|]. sb; [apply sok_find_gens; auto|].
        sb; [apply sok_shuffle; auto|]. apply sok_find_map; [exact H4|].
        intros g Hg. apply sok_try_rule; auto.
    Qed.
    Lemma sok_reduce_pair e l r : good e -> good l -> good r -> sok (reduce_pair cfg snap fuel o e l r).
    Proof.
      intros He Hl Hr. apply sok_or_else; [|apply sok_or_else].
      - apply sok_opt_then; [apply okt_exp, Hr|]. intros [rl rr] [H1 H2].
        apply sok_right_branch; auto.
      - apply sok_opt_then; [apply okt_exp, Hl|]. intros [ll lr] [H1 H2].
        apply sok_left_branch; auto.
      - apply sok_rec_pair; auto.
    Qed.
    Lemma sok_reduce e t : good e -> good t -> sok (reduce cfg snap fuel o e t).
    Proof.
      intros He Ht. sb; [apply sok_cached_reduction|]. destruct a; [apply sok_ret; exact H|].
      sb; [destruct (t_concept t); [apply sok_concrete_type|triv]|].
      destruct a; [triv|]. sb.
      - apply sok_or_else.
        + apply sok_opt_then; [apply okt_concept, Ht|]. intros c Hc. apply sok_reduce_concept; auto.
        + apply sok_opt_then; [apply okt_exp, Ht|]. intros [l r] [H1 H2]. apply sok_reduce_pair; auto.
      - sb; [apply sok_insert_reduction; auto|]. apply sok_ret. exact H1.
    Qed.
    Lemma good_step : good_ops (step cfg snap fuel o).
    Proof.
      repeat apply conj; cbn; intros; [apply sok_reduce|apply sok_to_ast|apply sok_get_assoc|
        apply sok_expand|apply sok_normal_form|apply sok_evidence|apply sok_find_examples]; auto.
    Qed.
  End SearchStep.

  Lemma good_search n : good_ops (search cfg snap fuel n).
  Proof.
    induction n as [|n IH]; cbn [search]; [|apply good_step; exact IH].
    repeat apply conj; intros; apply sok_oof.
  Qed.

  (** ** Commands *)
  Definition last_is (d : delta) (id : cid) (x : direct) : Prop :=
    exists l, d_order (overlay d) = l ++ [(id, x)].
  (** What a command may record, given the changes recorded so far. *)
  Inductive legit (d : delta) : direct -> Prop :=
  | LegitString s : legit d (DNew (NString s))
  | LegitReducesTo r s : last_is d r (DNew (NString s)) -> legit d (DNew (NReducesTo r))
  | LegitRighthand comp l r :
      last_is d comp (DNew (NReducesTo r)) -> legit d (DNew (NRighthand comp l None))
  | LegitDouble comp r :
      last_is d comp (DNew (NReducesTo r)) -> legit d (DNew (NDouble comp None))
  | LegitComposition l r m :
      read_concept cfg snap d l = Ok m -> m_find_as_hand m r HLeft = None ->
      legit d (DNew (NComposition l r))
  | LegitFree : legit d (DNew NFreeVariable)
  | LegitBound : legit d (DNew NBoundVariable)
  | LegitForget c m r :
      read_concept cfg snap d c = Ok m -> m_reduction m = Some r -> legit d (DReduce c (Remove r))
  | LegitReduce c m r nf rc :
      get_normal_form cfg snap d fuel r = Ok nf -> nf <> Some c ->
      read_concept cfg snap d c = Ok m -> m_reduction m <> Some r ->
      get_reduction_of_composition cfg snap d fuel c = Ok rc -> rc <> r ->
      legit d (DReduce c (match nf with None => Create r | Some b => Update b r end))
  | LegitCompose c m l r x :
      contains cfg snap d fuel l c = Ok false -> contains cfg snap d fuel r c = Ok false ->
      check_reductions cfg snap d fuel c l = Ok tt -> check_reductions cfg snap d fuel c r = Ok tt ->
      read_concept cfg snap d c = Ok m -> compose_delta cfg m l r = Ok x -> legit d x
  | LegitRemove c : legit d (DRemove c).

  Inductive steps : delta -> delta -> Prop :=
  | steps_refl d : steps d d
  | steps_snoc d d1 x id d2 :
      steps d d1 -> legit d1 x -> good x -> delta_update x d1 = Ok (id, d2) -> steps d d2.
  Lemma steps_trans a b c : steps a b -> steps b c -> steps a c.
  Proof. intros H K. induction K as [|d d1 x id d2 K IH L X U]; [exact H|].
    exact (steps_snoc _ _ _ _ _ (IH H) L X U). Qed.

  Definition cgood (c : ctx) : Prop :=
    c_snap c = snap /\ good (c_delta c) /\ good (c_cache c) /\ good (c_vars c).
  #[local] Instance good_zres A (G : Good A) : Good (zres A) := fun r =>
    match r with Val a => good a | Fail _ => True end.
  Definition cok {A} {G : Good A} (m : CM A) : Prop :=
    forall c r c', cgood c -> m c = Ok (r, c') ->
      cgood c' /\ steps (c_delta c) (c_delta c') /\ good r.

  Lemma cok_ret {A} {G : Good A} (a : A) : good a -> cok (cret a).
  Proof. intros H c r c' Hc E. injection E as <- <-. split; [exact Hc|split; [apply steps_refl|exact H]]. Qed.
  Lemma cok_fail {A} {G : Good A} e : cok (cfail e : CM A).
  Proof. intros c r c' Hc E. injection E as <- <-. split; [exact Hc|split; [apply steps_refl|exact I]]. Qed.
  Lemma cok_bind {A B} {G : Good A} {H : Good B} (m : CM A) (f : A -> CM B) :
    cok m -> (forall a, good a -> cok (f a)) -> cok (cbind m f).
  Proof.
    intros Hm Hf c r c' Hc E. unfold cbind in E. apply obind_ok in E.
    destruct E as ([x c1] & E1 & E2). destruct (Hm _ _ _ Hc E1) as (H1 & H2 & H3).
    destruct x as [a|e].
    - destruct (Hf a H3 _ _ _ H1 E2) as (K1 & K2 & K3).
      split; [exact K1|split; [eapply steps_trans; eauto|exact K3]].
    - injection E2 as <- <-. split; [exact H1|split; [exact H2|exact I]].
  Qed.
  Lemma cok_catch {A} {G : Good A} (m : CM A) : cok m -> cok (catch m).
  Proof.
    intros Hm c r c' Hc E. unfold catch in E. apply obind_ok in E.
    destruct E as ([x c1] & E1 & E2). injection E2 as <- <-. apply (Hm _ _ _ Hc E1).
  Qed.
  Lemma cok_rethrow {A} {G : Good A} (r : zres A) : good r -> cok (rethrow r).
  Proof. intros H. destruct r; [apply cok_ret; exact H|apply cok_fail]. Qed.
  Lemma cok_lift {A} {G : Good A} (f : ctx -> outcome A) :
    (forall c, cgood c -> ok (f c)) -> cok (clift f).
  Proof.
    intros H c r c' Hc E. unfold clift in E. pose proof (H c Hc) as K.
    destruct (f c) eqn:Ef; try discriminate; injection E as <- <-;
      (split; [exact Hc|split; [apply steps_refl|]]); [apply K; reflexivity|exact I].
  Qed.
  Lemma cok_panic {A} {G : Good A} x : cok (clift (fun _ => Panic x) : CM A).
  Proof. apply cok_lift. intros c _. apply ok_bad. discriminate. Qed.
  Lemma cok_on_irreducible {A} {G : Good A} (m alt : CM A) :
    cok m -> cok alt -> cok (on_irreducible m alt).
  Proof.
    intros H1 H2. apply cok_bind; [apply cok_catch, H1|]. intros [a|e] Ha.
    - apply cok_rethrow. exact Ha.
    - destruct e; try apply cok_fail. exact H2.
  Qed.
  Lemma cok_search {A} {G : Good A} (f : ctx -> env -> SM A) :
    (forall c e, c_snap c = snap -> good e -> sok (f c e)) ->
    cok (fun c => with_search (f c) c).
  Proof.
    intros H c r c' Hc E. unfold with_search in E. destruct Hc as (C1 & C2 & C3 & C4).
    destruct (f c _ _) as [[a s]| | |] eqn:Ef; try discriminate; injection E as <- <-.
    - assert (E0 : good (new_env (c_delta c) (c_bound c))).
      { split; [exact C2|]. cbn. apply good_cons. split; apply good_nil. }
      assert (S0 : good (start_state (c_cache c) (c_tick c))).
      { destruct C3 as (K1 & K2 & K3). split; [|split]; cbn.
        - apply good_cons. split; [exact K1|apply good_nil].
        - apply good_cons. split; [exact K2|apply good_nil].
        - exact K3. }
      destruct (H c _ C1 E0 _ _ _ S0 Ef) as [S A'].
      split; [|split; [apply steps_refl|exact A']].
      destruct S as (S1 & S2 & S3). split; [exact C1|split; [exact C2|split; [|exact C4]]].
      split; [|split]; cbn; [| |exact S3].
      + destruct (s_red s) as [|x l]; [apply good_nil|]. apply good_cons in S1. exact (proj1 S1).
      + destruct (s_syn s) as [|x l]; [apply good_nil|]. apply good_cons in S2. exact (proj1 S2).
    - split; [split; auto|split; [apply steps_refl|exact I]].
  Qed.
  Lemma cok_need : cok need_delta.
  Proof.
    intros c r c' Hc E. unfold need_delta in E. destruct (pinned c); injection E as <- <-;
      (split; [exact Hc|split; [apply steps_refl|exact I]]).
  Qed.
  Lemma good_empty_cache : good empty_cache.
  Proof. split; [|split]; apply good_nil. Qed.
  (** A recorded change, given what the context knows at that moment. *)
  Lemma cok_update_at (x : direct) c r c' :
    cgood c -> legit (c_delta c) x -> good x -> update x c = Ok (r, c') ->
    cgood c' /\ steps (c_delta c) (c_delta c') /\ good r /\
    exists id, r = Val id /\ last_is (c_delta c') id x.
  Proof.
    intros Hc L Hx E. unfold update in E. apply obind_ok in E.
    destruct E as ([id d'] & E1 & E2). injection E2 as <- <-.
    destruct Hc as (C1 & C2 & C3 & C4).
    destruct (ok_delta_update x (c_delta c) C2 Hx _ E1) as [G1 G2].
    split; [split; [exact C1|split; [exact G2|split; [apply good_empty_cache|exact C4]]]|].
    split; [econstructor; [apply steps_refl|exact L|exact Hx|exact E1]|].
    split; [exact G1|]. exists id. split; [reflexivity|].
    cbn. destruct (c_delta c) as [o i]. cbn in E1. apply obind_ok in E1.
    destruct E1 as ([id' o'] & E1 & E2). injection E2 as <- <-.
    unfold update_layer in E1. apply obind_ok in E1. destruct E1 as ([id2 o1] & E1 & E2).
    injection E2 as <- <-. exists (d_order o1). reflexivity.
  Qed.
  Lemma cok_update x : (forall c, cgood c -> legit (c_delta c) x) -> good x -> cok (update x).
  Proof.
    intros L Hx c r c' Hc E.
    destruct (cok_update_at x c r c' Hc (L c Hc) Hx E) as (A & B & C & _). auto.
  Qed.

  Lemma cok_read c : P c -> cok (c_read cfg c).
  Proof. intros Hc. apply cok_lift. intros x (-> & X & _). eauto with rng. Qed.
  Lemma cok_concrete_id cc : cok (c_concrete_id cfg cc).
  Proof. apply cok_lift. intros x (-> & X & _). apply ok_concrete_id; auto. Qed.
  Lemma cok_concrete_type c : cok (c_concrete_type cfg c).
  Proof. apply cok_lift. intros x _. apply ok_opt_any. Qed.
  Lemma cok_concrete_type_of t : cok (c_concrete_type_of cfg t).
  Proof.
    unfold c_concrete_type_of. destruct (t_concept t); [apply cok_concrete_type|].
    apply cok_ret. exact I.
  Qed.

  Lemma read_back (c : ctx) id r c' :
    c_read cfg id c = Ok (r, c') ->
    c' = c /\ match r with
              | Val m => read_concept cfg (c_snap c) (c_delta c) id = Ok m
              | Fail _ => True
              end.
  Proof.
    unfold c_read, clift. destruct (read_concept _ _ _ _); intros [= <- <-]; auto.
  Qed.
  Lemma lift_back {A} (f : ctx -> outcome A) (c : ctx) r c' :
    clift f c = Ok (r, c') ->
    c' = c /\ match r with Val a => f c = Ok a | Fail _ => True end.
  Proof. unfold clift. destruct (f c); intros [= <- <-]; auto. Qed.
  (** Inverting a bind: either the first part fails or both succeed. *)
  Lemma bind_back {A B} (m : CM A) (f : A -> CM B) c r c' :
    cbind m f c = Ok (r, c') ->
    exists x c1, m c = Ok (x, c1) /\
      match x with
      | Val a => f a c1 = Ok (r, c')
      | Fail e => r = Fail e /\ c' = c1
      end.
  Proof.
    unfold cbind. intros E. apply obind_ok in E. destruct E as ([x c1] & E1 & E2).
    exists x, c1. split; [exact E1|]. destruct x; [exact E2|]. injection E2 as <- <-. auto.
  Qed.

  Lemma cok_new_labelled s l : good l -> cok (new_labelled_concept cfg s None l).
  Proof.
    intros Hl c r c' Hc E. unfold new_labelled_concept in E.
    apply bind_back in E. destruct E as (x & c1 & E1 & E).
    apply lift_back in E1. destruct E1 as [-> _].
    destruct x as [[]|e]; [|destruct E as [-> ->]; split; [exact Hc|split; [apply steps_refl|exact I]]].
    apply bind_back in E. destruct E as (x & c1 & E1 & E).
    destruct (cok_update_at _ _ _ _ Hc (LegitString _ s) I E1) as (C1 & S1 & _ & str & -> & L1).
    apply bind_back in E. destruct E as (x & c2 & E2 & E).
    assert (Pstr : P str).
    { destruct (cok_update_at _ _ _ _ Hc (LegitString _ s) I E1) as (_ & _ & G1 & _). exact G1. }
    destruct (cok_update_at _ _ _ _ C1 (LegitReducesTo _ _ _ L1) Pstr E2)
      as (C2 & S2 & Pcomp & comp & -> & L2). cbn in Pcomp.
    assert (X : exists x : direct,
        update x c2 = Ok (r, c') /\ legit (c_delta c2) x /\ good x).
    { eexists. split; [exact E|]. destruct l as [l|].
      - split; [eapply LegitRighthand; exact L2|]. split; assumption.
      - split; [eapply LegitDouble; exact L2|]. exact Pcomp. }
    destruct X as (x & Ex & Lx & Gx).
    destruct (cok_update_at _ _ _ _ C2 Lx Gx Ex) as (C3 & S3 & G3 & _).
    split; [exact C3|split; [|exact G3]].
    eapply steps_trans; [exact S1|]. eapply steps_trans; [exact S2|exact S3].
  Qed.

  Lemma cok_delete_reduction c s : P c -> cok (delete_reduction cfg c s).
  Proof.
    intros Pc x r x' Hx E. unfold delete_reduction in E.
    apply bind_back in E. destruct E as (m & x1 & E1 & E).
    pose proof (cok_read c Pc _ _ _ Hx E1) as (_ & _ & Gm).
    apply read_back in E1. destruct E1 as [-> E1].
    destruct m as [m|e]; [|destruct E as [-> ->]; split; [exact Hx|split; [apply steps_refl|exact I]]].
    pose proof (ok_m_reduction m Gm) as Gr.
    destruct (m_reduction m) as [y|] eqn:Ey; [|exact (cok_fail _ _ _ _ Hx E)].
    apply bind_back in E. destruct E as (z & x1 & E2 & E).
    assert (L : legit (c_delta x) (DReduce c (Remove y))).
    { rewrite (proj1 Hx) in E1. eapply LegitForget; eauto. }
    destruct (cok_update_at _ _ _ _ Hx L (conj Pc Gr) E2) as (C1 & S1 & G1 & id & -> & _).
    injection E as <- <-. split; [exact C1|split; [exact S1|exact I]].
  Qed.

  Lemma cid_eqb_refl (c : cid) : cid_eqb c c = true.
  Proof. destruct (cid_eqb_spec c c); congruence. Qed.
  Lemma cok_update_reduction c s r : P c -> P r -> cok (update_reduction cfg fuel c s r).
  Proof.
    intros Pc Pr x o x' Hx E. unfold update_reduction in E.
    assert (Fl : forall e : zia_error, cgood x /\ steps (c_delta x) (c_delta x) /\ good (@Fail unit e)).
    { intros e. split; [exact Hx|split; [apply steps_refl|exact I]]. }
    pose proof (proj1 Hx) as Sx.
    apply bind_back in E. destruct E as (nf & x1 & E1 & E).
    apply lift_back in E1. destruct E1 as [-> E1].
    destruct nf as [nf|e]; [|destruct E as [-> ->]; apply Fl].
    rewrite Sx in E1. pose proof (ok_normal_form (c_delta x) (proj1 (proj2 Hx)) fuel r Pr _ E1) as Gnf.
    destruct (option_eqb cid_eqb nf (Some c)) eqn:N1; [injection E as <- <-; apply Fl|].
    apply bind_back in E. destruct E as (m & x1 & E2 & E).
    apply read_back in E2. destruct E2 as [-> E2].
    destruct m as [m|e]; [|destruct E as [-> ->]; apply Fl].
    destruct (option_eqb cid_eqb (m_reduction m) (Some r)) eqn:N2; [injection E as <- <-; apply Fl|].
    apply bind_back in E. destruct E as (rc & x1 & E3 & E).
    apply lift_back in E3. destruct E3 as [-> E3].
    destruct rc as [rc|e]; [|destruct E as [-> ->]; apply Fl].
    destruct (cid_eqb r rc) eqn:N3; [injection E as <- <-; apply Fl|].
    apply bind_back in E. destruct E as (z & x1 & E4 & E).
    rewrite Sx in E2, E3.
    assert (L : legit (c_delta x) (DReduce c match nf with None => Create r | Some b => Update b r end)).
    { eapply LegitReduce; eauto.
      - intros ->. cbn in N1. rewrite cid_eqb_refl in N1. discriminate.
      - intros K. rewrite K in N2. cbn in N2. rewrite cid_eqb_refl in N2. discriminate.
      - intros <-. rewrite cid_eqb_refl in N3. discriminate. }
    assert (Gx : good (DReduce c match nf with None => Create r | Some b => Update b r end)).
    { split; [exact Pc|]. destruct nf; [split; [exact Gnf|exact Pr]|exact Pr]. }
    destruct (cok_update_at _ _ _ _ Hx L Gx E4) as (C1 & S1 & G1 & id & -> & _).
    injection E as <- <-. split; [exact C1|split; [exact S1|exact I]].
  Qed.

  Lemma cok_find_or_insert l r : P l -> P r -> cok (find_or_insert_composition cfg l r).
  Proof.
    intros Pl Pr x o x' Hx E. unfold find_or_insert_composition in E.
    apply bind_back in E. destruct E as (m & x1 & E1 & E).
    pose proof (cok_read l Pl _ _ _ Hx E1) as (_ & _ & Gm).
    apply read_back in E1. destruct E1 as [-> E1].
    destruct m as [m|e]; [|destruct E as [-> ->]; split; [exact Hx|split; [apply steps_refl|exact I]]].
    pose proof (ok_m_find m r HLeft Gm) as Gr.
    destruct (m_find_as_hand m r HLeft) as [y|] eqn:Ey.
    - exact (cok_ret y Gr _ _ _ Hx E).
    - rewrite (proj1 Hx) in E1.
      destruct (cok_update_at _ _ _ _ Hx (LegitComposition _ _ _ _ E1 Ey) (conj Pl Pr) E)
        as (C1 & S1 & G1 & _). auto.
  Qed.

  Ltac cb := apply cok_bind; [|let a := fresh "a" in let H := fresh "H" in intros a H].
  Ltac ctriv := apply cok_ret; exact I.

  Lemma cok_label c s t : P c -> cok (label cfg fuel c s t).
  Proof.
    intros Pc. unfold label. cb; [apply cok_concrete_id|]. destruct a as [l|]; [|apply cok_fail].
    cb; [apply cok_find_or_insert; auto|].
    cb; [apply cok_lift; intros x (_ & X & _); apply ok_delta_string; exact X|].
    cb.
    - destruct a0 as [[id|b1 b2|b]|]; [apply cok_ret; exact H1| | |];
        (apply cok_update; [intros; apply LegitString|exact I]).
    - apply cok_update_reduction; auto.
  Qed.
  Lemma cok_unlabel c s : P c -> cok (unlabel cfg c s).
  Proof.
    intros Pc. unfold unlabel.
    cb; [apply cok_lift; intros x (-> & X & _); apply ok_concept_of_label; auto|].
    cb; [apply cok_lift; intros x _; apply ok_unwrap; exact H|].
    apply cok_delete_reduction. exact H0.
  Qed.
  Lemma cok_relabel c s t : P c -> cok (relabel cfg fuel c s t).
  Proof. intros Pc. cb; [apply cok_unlabel; auto|]. apply cok_label. exact Pc. Qed.

  Lemma cok_label_lookup s : cok (clift (fun x => concept_from_label cfg (c_snap x) (c_delta x) fuel s)).
  Proof. apply cok_lift. intros x (-> & X & _). apply ok_from_label; auto. Qed.
  Lemma cok_from_branch s c l r fv bv :
    good c -> cok (concept_from_ast cfg fuel l) -> cok (concept_from_ast cfg fuel r) ->
    cok (concept_from_ast cfg fuel (TBranch s c l r fv bv)).
  Proof.
    intros Hc Hl Hr. cbn. destruct c; [apply cok_ret; exact Hc|]. cb; [apply cok_label_lookup|].
    destruct a; [apply cok_ret; exact H|].
    cb; [auto|]. cb; [auto|]. cb; [apply cok_find_or_insert; auto|].
    cb; [|apply cok_ret; exact H2].
    match goal with |- cok (if ?b then _ else _) => destruct b end; [ctriv|apply cok_label; auto].
  Qed.
  Lemma cok_from_ast t : good t -> cok (concept_from_ast cfg fuel t).
  Proof.
    induction t as [s c k|s c l IHl r IHr fv bv]; intros Ht; cbn.
    - destruct c; [apply cok_ret; exact Ht|]. cb; [apply cok_label_lookup|].
      destruct a; [apply cok_ret; exact H|]. cb; [apply cok_concrete_id|].
      destruct a; [|apply cok_fail]. apply cok_new_labelled. exact H0.
    - destruct Ht as (Hc & Hl & Hr & Hgap). apply (cok_from_branch s c l r fv bv); auto.
  Qed.

  Lemma ok_compose_delta m l r x :
    good m -> P l -> P r -> compose_delta cfg m l r = Ok x -> good x.
  Proof.
    intros Hm Pl Pr E. unfold compose_delta in E. apply obind_ok in E.
    destruct E as (mc & E1 & E2). pose proof (ok_m_id m Hm) as Pi.
    destruct mc as [[bl br f b|[]]|]; try discriminate; injection E2 as <-.
    - assert (X : P bl /\ P br).
      { destruct m as [o ch comp red|c]; cbn in E1.
        - destruct Hm as (Ho & Hch & Hcomp & Hred).
          destruct (maybe_composition o) as [[? ? ? ?|lc]|]; [| |discriminate].
          + destruct comp as [[x y]|]; [|discriminate]. injection E1 as <- <- <- <-. exact Hcomp.
          + destruct comp as [[x y]|]; [|discriminate]. apply obind_ok in E1.
            destruct E1 as (_ & _ & E1). injection E1 as <- <- <- <-. exact Hcomp.
        - destruct c as [i lh rh fr sp]. destruct Hm as (_ & _ & _ & _ & Ho). cbn in *.
          destruct sp; try discriminate. injection E1 as E1. unfold maybe_composition in E1. cbn in E1. 
          destruct composition; [|discriminate]. injection E1 as <- <- <- <-. apply Ho. }
      destruct X as [X1 X2]. split; [exact Pi|]. split; split; assumption.
    - split; [exact Pi|split; assumption].
  Qed.
  Lemma cok_insert_composition c l r : P c -> P l -> P r -> cok (insert_composition cfg fuel c l r).
  Proof.
    intros Pc Pl Pr x o x' Hx E. unfold insert_composition in E.
    assert (Fl : forall e : zia_error, cgood x /\ steps (c_delta x) (c_delta x) /\ good (@Fail unit e)).
    { intros e. split; [exact Hx|split; [apply steps_refl|exact I]]. }
    pose proof (proj1 Hx) as Sx.
    apply bind_back in E. destruct E as (b & x1 & E0 & E).
    assert (B : x1 = x /\ (b = Val false ->
        contains cfg snap (c_delta x) fuel l c = Ok false /\
        contains cfg snap (c_delta x) fuel r c = Ok false)).
    { apply bind_back in E0. destruct E0 as (bl & x2 & E1 & E0).
      apply lift_back in E1. destruct E1 as [-> E1].
      destruct bl as [[]|e].
      - injection E0 as <- <-. split; [reflexivity|discriminate].
      - apply lift_back in E0. destruct E0 as [-> E0]. split; [reflexivity|]. intros ->.
        rewrite Sx in E1, E0. auto.
      - destruct E0 as [-> ->]. split; [reflexivity|discriminate]. }
    destruct B as [-> B]. destruct b as [b|e]; [|destruct E as [-> ->]; apply Fl].
    destruct b; [injection E as <- <-; apply Fl|]. destruct (B eq_refl) as [B1 B2]. clear B E0.
    apply bind_back in E. destruct E as (u & x1 & E1 & E).
    apply lift_back in E1. destruct E1 as [-> E1].
    destruct u as [[]|e]; [|destruct E as [-> ->]; apply Fl].
    apply bind_back in E. destruct E as (u & x1 & E2 & E).
    apply lift_back in E2. destruct E2 as [-> E2].
    destruct u as [[]|e]; [|destruct E as [-> ->]; apply Fl].
    apply bind_back in E. destruct E as (m & x1 & E3 & E).
    pose proof (cok_read c Pc _ _ _ Hx E3) as (_ & _ & Gm).
    apply read_back in E3. destruct E3 as [-> E3].
    destruct m as [m|e]; [|destruct E as [-> ->]; apply Fl].
    apply bind_back in E. destruct E as (d & x1 & E4 & E).
    apply lift_back in E4. destruct E4 as [-> E4].
    destruct d as [d|e]; [|destruct E as [-> ->]; apply Fl].
    apply bind_back in E. destruct E as (z & x1 & E5 & E).
    rewrite Sx in E1, E2, E3.
    assert (L : legit (c_delta x) d) by exact (LegitCompose _ c m l r d B1 B2 E1 E2 E3 E4).
    destruct (cok_update_at _ _ _ _ Hx L (ok_compose_delta _ _ _ _ Gm Pl Pr E4) E5)
      as (C1 & S1 & G1 & id & -> & _).
    injection E as <- <-. split; [exact C1|split; [exact S1|exact I]].
  Qed.
  Lemma cok_redefine c l r : P c -> good l -> good r -> cok (redefine cfg fuel c l r).
  Proof.
    intros Pc Hl Hr. cb; [apply cok_from_ast; auto|]. cb; [apply cok_from_ast; auto|].
    apply cok_insert_composition; auto.
  Qed.
  Lemma cok_redefine_composition c l r ol or_ :
    P c -> good l -> good r -> cok (redefine_composition cfg fuel c l r ol or_).
  Proof.
    intros Pc Hl Hr. cb; [apply cok_read; auto|]. pose proof (ok_m_composition a H) as C.
    destruct (m_composition a) as [[lc rc]|]; [|apply cok_redefine; auto]. destruct C as [C1 C2].
    cb; [apply cok_relabel; auto|]. apply cok_relabel. exact C2.
  Qed.
  Lemma cok_define_new s l r : good l -> good r -> cok (define_new_syntax cfg fuel s l r).
  Proof.
    intros Hl Hr. unfold define_new_syntax. cb.
    - pose proof (okt_concept l Hl) as Pl. pose proof (okt_concept r Hr) as Pr.
      destruct (t_concept l); [|apply cok_ret, okt_from_text].
      destruct (t_concept r); [|apply cok_ret, okt_from_text].
      cb; [apply cok_read; auto|]. pose proof (ok_m_find a c0 HLeft H) as X.
      destruct (m_find_as_hand _ _ _); [|apply cok_ret, okt_from_text].
      apply cok_lift. intros x (-> & X' & _). apply ok_bind_syntax; auto. apply okt_from_text.
    - cb; [|ctriv]. unfold bind_pair, branch. destruct (pair_vars l r).
      apply cok_from_branch; [apply okt_concept; exact H|apply cok_from_ast; exact Hl|apply cok_from_ast; exact Hr].
  Qed.
  Lemma cok_blind c : P c -> cok (blindly_remove_concept c).
  Proof. intros Pc. cb; [apply cok_update; [intros; apply LegitRemove|exact Pc]|ctriv]. Qed.
  Lemma cok_remove_string s : cok (remove_string cfg s).
  Proof.
    unfold remove_string.
    cb; [apply cok_lift; intros x (_ & X & _); apply ok_delta_string; exact X|].
    cb; [|apply cok_blind; exact H0].
    apply cok_lift. intros x _. apply ok_unwrap. destruct a as [[]|]; cbn in *; tauto.
  Qed.
  Lemma cok_remove_concept c : P c -> cok (remove_concept cfg c).
  Proof.
    intros Pc. cb; [apply cok_read; auto|].
    cb; [destruct (m_string a); [apply cok_remove_string|ctriv]|]. apply cok_blind. exact Pc.
  Qed.
  Lemma cok_try_delete c s : P c -> cok (try_delete_concept cfg c s).
  Proof.
    intros Pc. unfold try_delete_concept. cb; [apply cok_lift; intros; apply ok_any|].
    destruct a; [|ctriv]. cb; [apply cok_unlabel; auto|]. apply cok_remove_concept. exact Pc.
  Qed.

  (** *** Parsing *)
  #[local] Instance good_kind : Good concept_kind := fun k =>
    match k with KConcrete id _ | KAbstract id => P id | _ => True end.
  #[local] Instance good_cat : Good category := fun k =>
    match k with CatConcept k => good k | _ => True end.
  #[local] Instance good_lexeme : Good lexeme := fun l => good (lx_cat l).
  Fixpoint okn (n : nested) : Prop :=
    match n with
    | NLeaf _ _ c => good c
    | NParent cs _ => (fix all (l : list nested) : Prop :=
                         match l with [] => True | n :: l => okn n /\ all l end) cs
    end.
  #[local] Instance good_nested : Good nested := okn.
  Lemma okn_parent cs s : good (NParent cs s) <-> good cs.
  Proof.
    unfold good, good_nested. cbn. induction cs as [|n cs IH].
    - split; [intros _; apply good_nil|auto].
    - split.
      + intros [H1 H2]. apply good_cons. split; [exact H1|apply IH, H2].
      + intros H. apply good_cons in H. destruct H as [H1 H2]. split; [exact H1|apply IH, H2].
  Qed.
  Lemma ok_kind c s : cgood c -> ok (kind_of_symbol cfg fuel c s).
  Proof.
    intros (Sx & D & _). unfold kind_of_symbol. rewrite Sx. destruct (is_variable_symbol s); [apply ok_Ok; exact I|].
    apply ok_obind; [apply ok_from_label; auto|]. intros [id|] Hi; [|apply ok_Ok; exact I].
    apply ok_obind_any. intros m. apply ok_Ok. destruct (m_concrete m); exact Hi.
  Qed.
  Lemma good_unsnoc {A} {G : Good A} (l : list A) : good l -> good (unsnoc l).
  Proof.
    destruct l as [|a l] using rev_ind; [intros _; exact I|]. intros H. rewrite LexerFacts.unsnoc_app.
    split; [intros x Hx; apply H, in_or_app; auto|].
    apply H, in_or_app. right. left. reflexivity.
  Qed.
  Lemma ok_lex k s : (forall t, ok (k t)) -> ok (lex k s).
  Proof.
    intros K. unfold lex.
    assert (G : forall st : list lexeme * list nat, good (fst st) ->
              forall st', lex_loop k st s = Ok st' -> good (fst st')).
    { induction s as [|ch s IH]; intros st Hst st' E; cbn in E; [injection E as <-; exact Hst|].
      apply obind_ok in E. destruct E as (st1 & E1 & E2). apply (IH st1); [|exact E2].
      clear E2 IH. destruct st as [ls stk]. cbn in *.
      assert (Ap : forall x, good x -> good (ls ++ [x])).
      { intros x Hx. apply good_app; [exact Hst|]. apply good_cons. split; [exact Hx|apply good_nil]. }
      destruct (N.eqb ch c_open); [injection E1 as <-; apply Ap; exact I|].
      destruct (N.eqb ch c_close).
      { destruct stk as [|op stk']; [injection E1 as <-; apply Ap; exact I|].
        match type of E1 with (if ?b then _ else _) = _ => destruct b end; [|discriminate]. injection E1 as <-. cbn.
        apply good_app; [|apply good_cons; split; [exact I|apply good_nil]].
        apply good_upd_nth; [|exact Hst]. intros [t ct] Ha. unfold set_closing. cbn.
        destruct ct; exact Ha. }
      pose proof (good_unsnoc ls Hst) as Hu.
      destruct (is_whitespace ch).
      { destruct (unsnoc ls) as [[i [t [| | |]]]|]; injection E1 as <-; cbn; try (apply Ap; exact I).
        apply good_app; [apply Hu|]. apply good_cons. split; [exact I|apply good_nil]. }
      destruct (unsnoc ls) as [[i [t [| | |]]]|]; apply obind_ok in E1; destruct E1 as (kk & E1 & E2);
        injection E2 as <-; cbn; pose proof (K _ _ E1) as Gk; try (apply Ap; exact Gk).
      apply good_app; [apply Hu|]. apply good_cons. split; [exact Gk|apply good_nil]. }
    apply (@ok_obind _ _ (fun st => good (fst st)) _).
    - intros st E. apply (G ([], [])); [apply good_nil|exact E].
    - intros st H. apply ok_Ok. exact H.
  Qed.
  Lemma good_from_kind k s : good k -> good (from_concept_kind k s).
  Proof. destruct k; cbn; auto. Qed.
  Lemma good_append n m : good n -> good m -> good (append_node n m).
  Proof.
    intros Hn Hm. unfold append_node. destruct n.
    - apply okn_parent. apply good_cons. split; [exact Hn|]. apply good_cons. split; [exact Hm|apply good_nil].
    - apply okn_parent. apply okn_parent in Hn. apply good_app; [exact Hn|].
      apply good_cons. split; [exact Hm|apply good_nil].
  Qed.
  Lemma good_nest_node n : good n -> good (nest_node n).
  Proof. intros H. apply okn_parent. apply good_cons. split; [exact H|apply good_nil]. Qed.
  Lemma good_adel {K V} {G : Good K} {H : Good V} eqb (k : K) (m : list (K * V)) :
    good m -> good (adel eqb k m).
  Proof. intros Hm p Hp. apply Hm. eapply in_adel_weak; eauto. Qed.
  Lemma ok_nest ls : good ls -> ok (nest ls).
  Proof.
    assert (G : forall st : nest_state, good (fst st) -> good ls ->
              forall st', nest_loop st ls = Ok st' -> good (fst st')).
    { induction ls as [|l ls IH]; intros st Hst Hls st' E; cbn in E; [injection E as <-; exact Hst|].
      apply good_cons in Hls. destruct Hls as [Hl Hls].
      apply obind_ok in E. destruct E as (st1 & E1 & E2). apply (IH st1); [|exact Hls|exact E2].
      clear E2 IH. destruct st as [m d]. cbn in Hst. unfold nest_step in E1.
      unfold good, good_lexeme in Hl. destruct (lx_cat l).
      - pose proof (good_aget_list Nat.eqb d m Hst) as A.
        destruct (aget Nat.eqb d (adel Nat.eqb d m)); [discriminate|]. injection E1 as <-. cbn.
        apply good_aset; [exact I| |apply good_adel, Hst].
        destruct (aget Nat.eqb d m); [apply good_append; [exact A|]|]; apply good_from_kind, Hl.
      - injection E1 as <-. exact Hst.
      - injection E1 as <-. exact Hst.
      - pose proof (good_aget_list Nat.eqb d m Hst) as A.
        destruct (aget Nat.eqb d m); [|discriminate]. destruct d as [|d]; [discriminate|].
        injection E1 as <-. cbn. pose proof (good_adel Nat.eqb (S d) m Hst) as Hm1.
        pose proof (good_aget_list Nat.eqb d _ Hm1) as A1.
        apply good_aset; [exact I| |apply good_adel, Hm1].
        destruct (aget Nat.eqb d (adel Nat.eqb (S d) m));
          [apply good_append; [exact A1|]|]; apply good_nest_node, A. }
    intros Hls. unfold nest. apply (@ok_obind _ _ (fun st : nest_state => good (fst st)) _).
    - intros st E. apply (G ([], 0)); [apply good_nil|exact Hls|exact E].
    - intros [m d] H. destruct (negb _); [apply ok_bad; discriminate|].
      pose proof (good_aget_list Nat.eqb 0 m H) as A. destruct (aget Nat.eqb 0 m);
        [apply ok_Ok; exact A|apply ok_bad; discriminate].
  Qed.

  Lemma good_ops_of c : c_snap c = snap -> good_ops (ops_of cfg fuel c).
  Proof. intros H. unfold ops_of. rewrite H. apply good_search. Qed.

  Lemma cok_shuffle {A} {G : Good A} (l : list A) : good l -> cok (c_shuffle cfg l).
  Proof. intros H. apply (cok_search (fun _ _ => shuffle cfg l)). intros. apply sok_shuffle. exact H. Qed.
  Lemma cok_combine l r : good l -> good r -> cok (c_combine cfg fuel l r).
  Proof.
    intros Hl Hr. apply (cok_search (fun c e => combine_ast cfg (c_snap c) (ops_of cfg fuel c) e l r)).
    intros c e Hc He. pose proof (good_ops_of c Hc). rewrite Hc. apply sok_combine; auto.
  Qed.
  Lemma cok_to_ast id : P id -> cok (c_to_ast cfg fuel id).
  Proof.
    intros Hi. apply (cok_search (fun c e => o_to_ast (ops_of cfg fuel c) e id)).
    intros c e Hc He. apply (proj1 (proj2 (good_ops_of c Hc))); auto.
  Qed.
  Lemma cok_assoc t : good t -> cok (c_assoc cfg fuel t).
  Proof.
    intros Ht. apply (cok_search (fun c e => o_assoc (ops_of cfg fuel c) e t)).
    intros c e Hc He. apply (proj1 (proj2 (proj2 (good_ops_of c Hc)))); auto.
  Qed.
  Lemma cok_concrete_ast cc : cok (c_concrete_ast cfg fuel cc).
  Proof.
    apply (cok_search (fun c e => concrete_ast cfg (c_snap c) (ops_of cfg fuel c) e cc)).
    intros c e Hc He. pose proof (good_ops_of c Hc). rewrite Hc. apply sok_concrete_ast; auto.
  Qed.
  Lemma cok_leaf k s c : good c -> cok (ast_from_syntax_leaf cfg fuel k s c).
  Proof.
    intros Hc. unfold ast_from_syntax_leaf. cb; [|apply cok_ret; exact H].
    destruct c; [apply cok_ret; exact Hc|]. cb; [apply cok_need|].
    cb; [apply cok_lift; intros x (-> & X & _); apply ok_from_label; auto|].
    destruct a0; [apply cok_ret; exact H0|]. cb; [apply cok_concrete_id|].
    apply cok_new_labelled. exact H1.
  Qed.
  Lemma cok_pair l r : good l -> good r -> cok (ast_from_pair cfg fuel l r).
  Proof.
    intros Hl Hr. unfold ast_from_pair. cb; [apply cok_concrete_type_of|].
    cb; [|apply cok_combine; auto].
    destruct (_ && _); [|ctriv]. intros c x c' Hc E. injection E as <- <-.
    split; [exact Hc|split; [apply steps_refl|exact I]].
  Qed.
  Lemma good_concept_ids ts : good ts -> good (concept_ids ts).
  Proof.
    intros H c Hc. apply in_flat_map in Hc. destruct Hc as (t & Ht & Hc).
    pose proof (okt_concept t (H t Ht)) as X. destruct (t_concept t); [|destruct Hc].
    destruct Hc as [<-|[]]. exact X.
  Qed.
  Lemma good_acc_if (b : bool) x acc : P x -> good acc -> good (if b then sadd cid_eqb x acc else acc).
  Proof. intros Hx Ha. destruct b; [apply good_sadd; auto|exact Ha]. Qed.
  Lemma cok_related ids es acc : good es -> good acc -> cok (related_concepts cfg ids es acc).
  Proof.
    revert acc. induction es as [|[r comp] es IH]; cbn; intros acc He Ha; [apply cok_ret; exact Ha|].
    apply good_cons in He. destruct He as [[H1 H2] H3]. cbn in H1, H2.
    cb; [apply cok_read; auto|]. apply IH; [exact H3|].
    pose proof (ok_m_iter_hand a HRight H) as L.
    pose proof (good_acc_if (smem cid_eqb r ids) r acc H1 Ha) as A.
    revert A. generalize (if smem cid_eqb r ids then sadd cid_eqb r acc else acc).
    induction (m_iter_hand_of cfg a HRight) as [|[x y] l IHl]; cbn; intros acc' A; [exact A|].
    apply good_cons in L. destruct L as [[L1 _] L2]. apply IHl; [exact L2|].
    apply good_acc_if; auto.
  Qed.
  Lemma cok_precedes x y : P x -> P y -> cok (precedes cfg fuel x y).
  Proof.
    intros Hx Hy. unfold precedes. cb; [|apply cok_concrete_type_of].
    match goal with |- cok (fun c => with_search (fun e => @?f c e) c) => apply (cok_search f) end.
    intros c e Hc He. pose proof (good_ops_of c Hc) as O. cbv beta zeta. rewrite Hc.
    apply sok_bind; [apply sok_concrete_ast; auto|]. intros p Hp.
    apply sok_bind; [apply sok_lift, ok_unwrap, Hp|]. intros p' Hp'.
    apply sok_bind; [apply (proj1 (proj2 O)); auto|]. intros ta Hta.
    apply sok_bind; [apply (proj1 (proj2 O)); auto|]. intros tb Htb.
    apply sok_bind; [apply sok_combine; auto|]. intros pb Hpb.
    apply sok_bind; [apply sok_combine; auto|]. intros apb Hapb.
    apply sok_smap; [apply (proj1 (proj2 (proj2 (proj2 (proj2 O))))); auto|].
    intros [u v] [Hu _]. exact Hu.
  Qed.
  Lemma cok_place c all low : P c -> good all -> good low -> cok (place_concept cfg fuel c all low).
  Proof.
    intros Hc Ha. induction low as [|l low IH]; cbn; intros Hl; [ctriv|].
    apply good_cons in Hl. destruct Hl as [H1 H2].
    assert (One : cok (cret (Some [c]))) by (apply cok_ret; apply good_one, Hc).
    cb; [apply cok_precedes; auto|].
    destruct a as [[]|]; try apply cok_panic; try (apply cok_ret; exact Ha);
      (cb; [apply cok_precedes; auto|]); destruct a as [[]|]; try apply cok_panic; auto;
      apply cok_ret; apply good_sadd; auto.
  Qed.
  Lemma cok_lowest cs low : good cs -> good low -> cok (lowest_concepts cfg fuel cs low).
  Proof.
    revert low. induction cs as [|c cs IH]; cbn; intros low Hc Hl; [apply cok_ret; exact Hl|].
    apply good_cons in Hc. destruct Hc as [H1 H2]. cb; [apply cok_shuffle; auto|].
    cb; [apply cok_place; auto|]. apply IH; [exact H2|].
    destruct a0; [exact H0|apply good_sadd; auto].
  Qed.
  Lemma good_nats (l : list nat) : good l.
  Proof. intros n _. exact I. Qed.
  Lemma cok_positions ts cs : cok (positions_of cfg ts cs).
  Proof.
    induction cs as [|c cs IH]; cbn; [apply cok_ret, good_nats|].
    cb; [apply cok_shuffle, good_nats|]. cb; [exact IH|]. apply cok_ret, good_nats.
  Qed.
  Lemma good_syntax_at ts ps : good ts -> good (syntax_at ts ps).
  Proof.
    intros H t Ht. apply in_flat_map in Ht. destruct Ht as (i & _ & Ht).
    destruct (nth_error ts i) eqn:E; [|destruct Ht]. destruct Ht as [<-|[]].
    apply nth_error_In in E. apply H, E.
  Qed.
  #[local] Instance good_tokens : Good token_subsequence := fun x => good (ts_syntax x).
  Lemma cok_lowest_info ts : good ts -> cok (lowest_precedence_info cfg fuel ts).
  Proof.
    intros Ht. unfold lowest_precedence_info. cb; [apply cok_concrete_id|].
    cb; [apply cok_lift; intros x _; apply ok_unwrap; exact H|].
    cb; [apply cok_read; auto|].
    cb; [apply cok_related; [apply ok_m_iter_hand; exact H1|apply good_nil]|].
    cb; [apply cok_shuffle; auto|].
    cb; [apply cok_lowest; [exact H3|apply good_nil]|].
    destruct a4.
    - cb; [apply cok_positions|]. apply cok_ret. apply good_syntax_at. exact Ht.
    - cb; [apply cok_shuffle; auto|]. cb; [apply cok_positions|].
      apply cok_ret. apply good_syntax_at. exact Ht.
  Qed.
  Lemma cok_common x ts : good ts -> cok (common_associativity cfg fuel x ts).
  Proof.
    revert x. induction ts as [|t ts IH]; cbn; intros x Ht.
    - apply cok_ret. destruct x; exact I.
    - apply good_cons in Ht. destruct Ht as [H1 H2]. cb; [apply cok_assoc; auto|].
      destruct x; [|auto]. destruct (associativity_eqb a _); [auto|apply cok_fail].
  Qed.
  Lemma good_firstn {A} {G : Good A} n (l : list A) : good l -> good (firstn n l).
  Proof. intros H a Ha. apply H. rewrite <- (firstn_skipn n l). apply in_or_app. auto. Qed.
  Lemma good_skipn {A} {G : Good A} n (l : list A) : good l -> good (skipn n l).
  Proof. intros H a Ha. apply H. rewrite <- (firstn_skipn n l). apply in_or_app. auto. Qed.
  Lemma ok_slice {A} {G : Good A} (l : list A) i j : good l -> ok (slice l i j).
  Proof.
    intros H. unfold slice. destruct (_ && _); [|apply ok_bad; discriminate].
    apply ok_Ok, good_firstn, good_skipn, H.
  Qed.
  Lemma ok_slice_tokens {A} {G : Good A} a (l : list A) p lp : good l -> ok (slice_tokens a l p lp).
  Proof. intros H. unfold slice_tokens. destruct a, p; apply ok_slice, H. Qed.
  Lemma cok_handler parse ts st lp a :
    (forall l, good l -> cok (parse l)) -> good ts -> good st ->
    cok (try_fold_handler cfg fuel parse ts st lp a).
  Proof.
    intros Hp Ht Hst. unfold try_fold_handler.
    cb; [apply cok_lift; intros x _; apply ok_slice_tokens; exact Ht|].
    destruct a0 as [|t0 l]; [apply cok_fail|].
    pose proof H as H'. apply good_cons in H'. destruct H' as [H0 Hl].
    assert (Nth : forall k, good (nth k (t0 :: l) t0)).
    { intros k. apply good_nth; [exact H|exact H0]. }
    cb.
    - destruct (Nat.eqb lp _); [|apply Hp; exact H].
      destruct (Nat.eqb _ 1); [apply cok_ret, Nth|].
      destruct a; (cb; [|apply cok_combine; auto; apply Nth]);
        destruct (Nat.ltb _ 3); try (apply cok_ret, Nth); apply Hp; [apply good_firstn; exact H|exact Hl].
    - cb; [|apply cok_ret; split; [exact H2|exact I]].
      destruct st as [[e k]|]; [destruct Hst; destruct a; apply cok_combine; auto|].
      destruct a; apply cok_ret; exact H1.
  Qed.
  Lemma cok_fold_right parse ts lps :
    (forall l, good l -> cok (parse l)) -> good ts ->
    forall m tl, good tl -> cok (fold_right_assoc cfg fuel parse ts m tl lps).
  Proof.
    intros Hp Ht. induction lps as [|lp lps IH]; cbn; intros m tl Htl.
    - apply cok_ret. split; [destruct m; exact I|exact Htl].
    - destruct (match m with Some _ => _ | None => _ end); [auto|].
      cb; [apply cok_handler; auto|]. apply IH. exact H.
  Qed.
  Lemma cok_fold_left parse ts lps :
    (forall l, good l -> cok (parse l)) -> good ts ->
    forall st, good st -> cok (fold_left_assoc cfg fuel parse ts st lps).
  Proof.
    intros Hp Ht. induction lps as [|lp lps IH]; cbn; intros st Hst; [apply cok_ret; exact Hst|].
    cb; [apply cok_handler; auto|]. apply IH. exact H.
  Qed.
  Lemma cok_heap_iter l : cok (heap_iter cfg l).
  Proof.
    unfold heap_iter. destruct (heap_max l); [|apply cok_ret, good_nats].
    cb; [apply cok_shuffle, good_nats|]. apply cok_ret, good_nats.
  Qed.
  Lemma cok_oof {A} {G : Good A} : cok (fun _ => OutOfFuel : outcome (zres A * ctx)).
  Proof. intros c r c' _ E. discriminate. Qed.
  Lemma cok_list n ts : good ts -> cok (ast_from_syntax_list cfg fuel n ts).
  Proof.
    revert ts. induction n as [|n IH]; intros ts Ht; [apply cok_oof|].
    cbn [ast_from_syntax_list].
    destruct ts as [|t1 [|t2 [|t3 ts]]].
    - apply cok_panic.
    - apply cok_ret. apply good_cons in Ht. exact (proj1 Ht).
    - apply cok_ret. apply good_cons in Ht. destruct Ht as [H1 H2].
      apply good_cons in H2. destruct H2 as [H2 _]. apply okt_new_pair; auto.
    - set (l := t1 :: t2 :: t3 :: ts) in *.
      cb; [apply cok_lowest_info; auto|].
      destruct (ts_positions a) eqn:Ep; [apply cok_fail|]. rewrite <- Ep.
      cb; [apply cok_common; exact H|]. destruct a0 as [[]|]; [| |apply cok_fail].
      + cb; [apply cok_heap_iter|]. cb; [apply cok_fold_left; auto; exact I|].
        destruct a1 as [[t k]|]; [|apply cok_fail]. apply cok_ret. apply H2.
      + cb; [apply cok_fold_right; auto; exact I|]. destruct a0 as [m [[t k]|]]; [|apply cok_fail].
        destruct m as [m|]; [|apply cok_fail]. destruct H1 as [_ [H1 _]].
        destruct (Nat.eqb m 0); [apply cok_ret; exact H1|].
        cb; [apply IH, good_firstn, Ht|]. apply cok_combine; auto.
  Qed.
  Lemma cok_nested n : good n -> cok (ast_from_nested_syntax cfg fuel n).
  Proof.
    revert n. fix IH 1. intros [k s c|cs s] Hn.
    - apply cok_leaf. exact Hn.
    - apply okn_parent in Hn. cbn [ast_from_nested_syntax]. cb.
      + induction cs as [|n cs IHcs]; [apply cok_ret, good_nil|].
        apply good_cons in Hn. destruct Hn as [H1 H2].
        cb; [apply IH, H1|]. cb; [apply IHcs, H2|]. apply cok_ret. apply good_cons. split; assumption.
      + destruct a as [|l [|r [|x a]]]; try (apply cok_list; exact H).
        apply good_cons in H. destruct H as [H1 H2]. apply good_cons in H2. destruct H2 as [H2 _].
        apply cok_pair; auto.
  Qed.
  Lemma cok_nested_list n : good n -> cok (syntax_list_for_nested_syntax cfg fuel n).
  Proof.
    intros Hn. destruct n as [k s c|cs s].
    - cbn. cb; [apply cok_leaf; exact Hn|]. apply cok_ret. apply good_cons. split; [exact H|apply good_nil].
    - apply okn_parent in Hn. cbn. induction cs as [|n cs IHcs]; [apply cok_ret, good_nil|].
      apply good_cons in Hn. destruct Hn as [H1 H2].
      cb; [apply cok_nested, H1|]. cb; [apply IHcs, H2|]. apply cok_ret. apply good_cons. split; assumption.
  Qed.
  Lemma cok_expression s : cok (ast_from_expression cfg fuel s).
  Proof.
    unfold ast_from_expression.
    cb; [apply cok_lift; intros x Hx; apply ok_lex; intros t; apply ok_kind; exact Hx|].
    cb; [apply cok_lift; intros x _; apply ok_nest; exact H|].
    cb; [apply cok_nested_list; exact H0|]. apply cok_list. exact H1.
  Qed.

  (** *** Running *)
  Lemma cok_expand t : good t -> cok (c_expand cfg fuel t).
  Proof.
    intros Ht. apply (cok_search (fun c e => o_expand (ops_of cfg fuel c) e t)).
    intros c e Hc He. apply (proj1 (proj2 (proj2 (proj2 (good_ops_of c Hc))))); auto.
  Qed.
  Lemma cok_reduce t : good t -> cok (c_reduce cfg fuel t).
  Proof.
    intros Ht. apply (cok_search (fun c e => o_reduce (ops_of cfg fuel c) e t)).
    intros c e Hc He. apply (proj1 (good_ops_of c Hc)); auto.
  Qed.
  Lemma cok_normal_form t : good t -> cok (c_normal_form cfg fuel t).
  Proof.
    intros Ht. apply (cok_search (fun c e => smap fst (o_nf (ops_of cfg fuel c) e t None))).
    intros c e Hc He. apply sok_smap; [apply (proj1 (proj2 (proj2 (proj2 (proj2 (good_ops_of c Hc)))))); auto|].
    intros [u v] [Hu _]. exact Hu.
  Qed.
  Lemma cok_inferred t : good t -> cok (c_inferred cfg fuel t).
  Proof.
    intros Ht. apply (cok_search (fun c e =>
      find_examples_of_inferred_reduction cfg (c_snap c) fuel (ops_of cfg fuel c) e t)).
    intros c e Hc He. pose proof (good_ops_of c Hc). rewrite Hc. apply sok_inferred; auto.
  Qed.
  Lemma cok_contract l r : good l -> good r -> cok (c_contract cfg fuel l r).
  Proof.
    intros Hl Hr. apply (cok_search (fun c e => contract_pair cfg (c_snap c) fuel (ops_of cfg fuel c) e l r)).
    intros c e Hc He. pose proof (good_ops_of c Hc). rewrite Hc. apply sok_contract; auto.
  Qed.
  Lemma cok_create t : good t -> cok (create_variable_concepts t).
  Proof.
    induction t as [s c k|s c l IHl r IHr fv bv]; intros Ht; cbn [create_variable_concepts].
    - destruct k; try (apply cok_ret; exact Ht).
      intros x o x' Hx E.
      pose proof (good_aget_list text_eqb s (c_vars x) (proj2 (proj2 (proj2 Hx)))) as A.
      destruct (aget text_eqb s (c_vars x)) as [id|].
      { injection E as <- <-. split; [exact Hx|split; [apply steps_refl|]].
        exact A. }
      revert E. match goal with |- ?m x = _ -> _ => assert (M : cok m) end.
      { cb; [apply cok_need|]. cb.
        - apply cok_update.
          + intros y _. destruct (smem _ _ _); constructor.
          + destruct (smem _ _ _); exact I.
        - intros y o' y' Hy E'. injection E' as <- <-.
          split; [|split; [apply steps_refl|exact H0]].
          destruct Hy as (Y1 & Y2 & Y3 & Y4). split; [exact Y1|split; [exact Y2|split; [exact Y3|]]].
          cbn. apply good_aset; [exact I|exact H0|exact Y4]. }
      apply M. exact Hx.
    - destruct Ht as (Hc & Hl & Hr & Hgap). cb; [auto|]. cb; [auto|]. apply cok_ret. split; [exact Hc|split; [|split]; assumption].
  Qed.
  Lemma cok_try_removing t : good t -> cok (try_removing_reduction cfg t).
  Proof.
    intros Ht. unfold try_removing_reduction. cb; [apply cok_need|]. apply okt_concept in Ht.
    destruct (t_concept t); [apply cok_delete_reduction; exact Ht|apply cok_fail].
  Qed.
  Lemma cok_execute_reduction t nf : good t -> good nf -> cok (execute_reduction cfg fuel t nf).
  Proof.
    intros Ht Hn. unfold execute_reduction. destruct (t_contains nf t); [apply cok_fail|].
    destruct (key_eqb _ _); [apply cok_try_removing; auto|].
    cb; [apply cok_reduce; auto|].
    cb; [destruct a; [apply cok_ret; exact H|apply cok_inferred; auto]|].
    destruct a0 as [[r w]|]; [apply cok_fail|].
    cb; [apply cok_need|]. cb; [apply cok_from_ast; auto|]. cb; [apply cok_from_ast; auto|].
    apply cok_update_reduction; auto.
  Qed.
  Lemma cok_define new old : good new -> good old -> cok (define cfg fuel new old).
  Proof.
    intros Hn Ho. unfold define.
    pose proof (okt_concept new Hn) as Cn. pose proof (okt_exp new Hn) as En.
    pose proof (okt_concept old Ho) as Co. pose proof (okt_exp old Ho) as Eo.
    destruct (t_concept new) as [a|], (t_exp new) as [[nl nr]|], (t_concept old) as [b|],
             (t_exp old) as [[l r]|]; try apply cok_fail;
      unfold good, good_option, good_prod in En, Eo, Cn, Co; cbn in En, Eo, Cn, Co.
    - cb; [apply cok_need|]. apply cok_redefine_composition; [auto|apply Eo|apply Eo].
    - destruct (cid_eqb a b).
      + cb; [apply cok_read; auto|]. pose proof (ok_m_composition a0 H) as C.
        destruct (m_composition a0) as [[x y]|]; [|apply cok_fail]. destruct C as [C1 C2].
        cb; [apply cok_to_ast; auto|]. cb; [apply cok_to_ast; auto|]. cb; [apply cok_need|].
        cb; [apply cok_try_delete; auto|]. cb; [apply cok_try_delete; auto|]. apply cok_try_delete; auto.
      + cb; [apply cok_lift; intros x (-> & _); apply ok_Ok; auto with rng|].
        destruct a0; [|apply cok_fail]. cb; [apply cok_need|]. cb; [apply cok_unlabel; auto|].
        apply cok_relabel; auto.
    - cb; [apply cok_need|]. apply cok_redefine; [auto|apply Eo|apply Eo].
    - cb; [apply cok_to_ast; auto|].
      cb; [apply cok_lift; intros x (-> & X & _); apply ok_concept_of_label; auto|].
      cb; [apply cok_need|]. destruct a0; [apply cok_relabel|apply cok_label]; auto.
    - cb; [apply cok_need|]. apply cok_define_new; apply Eo.
    - cb; [apply cok_to_ast; auto|].
      cb; [apply cok_lift; intros x (-> & X & _); apply ok_concept_of_label; auto|].
      cb; [apply cok_need|]. destruct a0; [apply cok_relabel|apply cok_label]; auto.
    - cb; [apply cok_need|]. apply cok_relabel; auto.
    - cb; [apply cok_need|]. apply cok_define_new; apply Eo.
  Qed.
  Lemma cok_execute_composition new old :
    good new -> good old -> cok (execute_composition cfg fuel new old).
  Proof.
    intros Hn Ho. unfold execute_composition. destruct (t_contains old new); [apply cok_fail|].
    apply cok_define; auto.
  Qed.
  Lemma cok_match n l rl rr : good l -> good rl -> good rr -> cok (match_righthand_pair cfg fuel n l rl rr).
  Proof.
    intros Hl Hrl Hrr. revert rl Hrl. induction n as [|n IH]; intros rl Hrl; [apply cok_oof|].
    cbn [match_righthand_pair]. apply okt_concept in Hrl. destruct (t_concept rl); [|apply cok_fail].
    cb; [apply cok_concrete_type|].
    assert (R : cok (cbind (c_read cfg c) (fun m => match m_reduction m with
        | None => cfail CannotReduceFurther
        | Some r => cbind (c_to_ast cfg fuel r) (fun t => match_righthand_pair cfg fuel n l t rr) end))).
    { cb; [apply cok_read; auto|]. pose proof (ok_m_reduction a0 H0) as Y.
      destruct (m_reduction a0); [|apply cok_fail]. cb; [apply cok_to_ast; auto|]. apply IH. exact H1. }
    destruct a as [[]|]; try exact R.
    - apply cok_execute_composition; auto.
    - apply cok_execute_reduction; auto.
  Qed.
  Lemma cok_with_pin {A} {G : Good A} (m : CM A) : cok m -> cok (with_pin m).
  Proof.
    intros Hm c r c' Hc E. unfold with_pin in E. apply obind_ok in E.
    destruct E as ([x c1] & E1 & E2). injection E2 as <- <-.
    destruct (Hm (Ctx (c_snap c) (c_delta c) (c_cache c) (c_vars c) (c_bound c) true (c_tick c)) _ _ Hc E1)
      as (H1 & H2 & H3).
    split; [exact H1|split; [exact H2|exact H3]].
  Qed.
  Section GoodCalls.
    Variable call : tree -> CM text.
    Variable call_pair : tree -> tree -> CM text.
    Hypothesis GC : forall t, good t -> cok (call t).
    Hypothesis GP : forall l r, good l -> good r -> cok (call_pair l r).
    Lemma cok_reduce_and_call l r : good l -> good r -> cok (reduce_and_call_pair cfg fuel call_pair l r).
    Proof.
      intros Hl Hr. unfold reduce_and_call_pair. cb; [apply cok_reduce; auto|]. cb; [apply cok_reduce; auto|].
      destruct a as [[]|], a0 as [[]|]; try apply cok_fail; apply GP; auto;
        first [apply H|apply H0].
    Qed.
    Lemma cok_try_reducing t : good t -> cok (try_reducing_then_call cfg fuel call t).
    Proof.
      intros Ht. unfold try_reducing_then_call. cb; [apply cok_normal_form; auto|].
      destruct (key_eqb _ _); [|apply cok_with_pin; auto].
      cb; [apply cok_inferred; auto|]. destruct a0 as [[]|]; [ctriv|apply cok_fail].
    Qed.
    Lemma cok_call_step t : good t -> cok (call_step cfg fuel call call_pair t).
    Proof.
      intros Ht. unfold call_step. cb.
      - pose proof (okt_concept t Ht) as C. destruct (t_concept t); [|ctriv].
        cb; [apply cok_read; auto|]. apply cok_ret. destruct (m_string a); exact I.
      - destruct a; [ctriv|]. pose proof (okt_exp t Ht) as X. destruct (t_exp t) as [[l r]|].
        + destruct X as [X1 X2]. apply cok_on_irreducible; [auto|].
          apply cok_on_irreducible; [apply cok_try_reducing; auto|].
          cb; [apply cok_contract; auto|]. ctriv.
        + apply cok_on_irreducible; [apply cok_try_reducing; auto|ctriv].
    Qed.
    Lemma cok_call_let r : good r -> cok (call_let cfg fuel r).
    Proof.
      intros Hr. unfold call_let. cb.
      - pose proof (okt_exp r Hr) as X. destruct (t_exp r) as [[l r']|]; [|ctriv].
        destruct X as [X1 X2]. pose proof (okt_exp r' X2) as Y.
        destruct (t_exp r') as [[rl rr]|]; [|ctriv]. destruct Y as [Y1 Y2].
        cb; [apply cok_catch, cok_match; auto|]. apply cok_ret. destruct a as [[]|[]]; exact I.
      - destruct a; [apply cok_ret; exact H|]. cb; [apply cok_concrete_ast|].
        destruct a; [|ctriv]. cb; [apply cok_catch, cok_execute_reduction; auto|].
        apply cok_ret. exact H1.
    Qed.
    Lemma good_text_res (x : option (zres text)) : good x.
    Proof. destruct x as [[]|]; exact I. Qed.
    Lemma cok_call_pair_step l r : good l -> good r -> cok (call_pair_step cfg fuel call call_pair l r).
    Proof.
      intros Hl Hr. unfold call_pair_step. cb; [apply cok_concrete_type_of|]. cb.
      - destruct a as [[]|]; try ctriv.
        + cb; [|apply cok_ret, good_text_res].
          destruct (t_concept r); [|ctriv]. apply cok_lift. intros x _. intros [y|] _; exact I.
        + cb; [apply cok_call_let; auto|]. apply cok_ret, good_text_res.
        + apply okt_concept in Hr. destruct (t_concept r); [|ctriv].
          cb; [|apply cok_ret, good_text_res]. apply cok_catch.
          cb; [apply cok_need|]. cb; [apply cok_delete_reduction; auto|]. ctriv.
      - destruct a0; [apply cok_rethrow; exact H0|]. cb; [apply cok_concrete_type_of|].
        destruct (opt_cct_eqb _ _); [apply cok_try_reducing; auto|apply cok_reduce_and_call; auto].
    Qed.
  End GoodCalls.
  Lemma cok_calls n :
    (forall t, good t -> cok (fst (calls cfg fuel n) t)) /\
    (forall l r, good l -> good r -> cok (snd (calls cfg fuel n) l r)).
  Proof.
    induction n as [|n [IH1 IH2]]; cbn [calls]; (split; intros; cbn [fst snd]); try apply cok_oof.
    - apply cok_call_step; auto.
    - apply cok_call_pair_step; auto.
  Qed.
  Lemma cok_run s : cok (run_command cfg fuel s).
  Proof.
    unfold run_command. cb; [apply cok_expression|]. cb; [apply cok_expand; exact H|].
    cb; [|apply (proj1 (cok_calls fuel)); exact H1].
    intros c r c' Hc E. apply obind_ok in E. destruct E as ([x c1] & E1 & E2).
    destruct x as [t|]; [|discriminate]. injection E2 as <- <-.
    apply (cok_create a0 H0 _ _ _ Hc E1).
  Qed.
End Range.
