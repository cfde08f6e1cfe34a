(** Where the contents of the caches come from, after any history. *)
From Verif Require Import Snapshot Search Context Questions StoreSpec MapFacts AstFacts StoreFacts StoreInv
  LexerFacts RangeFacts History Sim SimRead Steps SearchKeeps SearchCaches Repeat Earned CacheRun CacheLife.
From Coq Require Import List PeanoNat Lia Bool.
Import ListNotations.
Local Open Scope zia_scope.

(** ** Specification *)
Section Computed.
  (** When evaluations were made: with which iteration orders and fuel, in which store, with which changes of a command pending. *)
  Variable moment : config -> nat -> snapshot -> delta -> Prop.
  (** The result [r] for the key [k] was found at such a moment by evaluating a tree with this key, which was
      not in the caches, and everything that was in the caches came about in the same way, then or before. *)
  Inductive computed_reduction : bool -> key -> rresult -> Prop :=
  | ComputedReduction cfg rf snap d own n e t s r s' :
      moment cfg rf snap d -> setting d own e ->
      (forall h k' r', In (k', r') (nth h (s_red s) []) -> computed_reduction (Nat.eqb h 0) k' r') ->
      (forall h c t', In (c, t') (nth h (s_syn s) []) -> computed_tree (Nat.eqb h 0) c t') ->
      (forall c r', In (c, r') (s_inf s) -> computed_inference c r') ->
      s_red s <> [] -> s_syn s <> [] ->
      lookup_red (e_reds e) (t_key t) (s_red s) = None ->
      o_reduce (search cfg snap rf n) e t s = Ok (r, s') ->
      computed_reduction own (t_key t) r
  (** The tree [t] was made for the concept [c]. *)
  with computed_tree : bool -> cid -> tree -> Prop :=
  | ComputedTree cfg rf snap d own n e c t s s' :
      moment cfg rf snap d -> setting d own e ->
      (forall h k' r', In (k', r') (nth h (s_red s) []) -> computed_reduction (Nat.eqb h 0) k' r') ->
      (forall h c' t', In (c', t') (nth h (s_syn s) []) -> computed_tree (Nat.eqb h 0) c' t') ->
      (forall c' r', In (c', r') (s_inf s) -> computed_inference c' r') ->
      s_red s <> [] -> s_syn s <> [] ->
      ml_get (e_mask e) c = None -> aget cid_eqb c (nth (e_syn e) (s_syn s) []) = None ->
      o_to_ast (search cfg snap rf n) e c s = Ok (t, s') ->
      computed_tree own c t
  (** The result [r] was inferred for the concept [c]. *)
  with computed_inference : cid -> rresult -> Prop :=
  | ComputedInference cfg rf snap d own n e c t r s s1 s2 :
      moment cfg rf snap d -> setting d own e ->
      (forall h k' r', In (k', r') (nth h (s_red s) []) -> computed_reduction (Nat.eqb h 0) k' r') ->
      (forall h c' t', In (c', t') (nth h (s_syn s) []) -> computed_tree (Nat.eqb h 0) c' t') ->
      (forall c' r', In (c', r') (s_inf s) -> computed_inference c' r') ->
      s_red s <> [] -> s_syn s <> [] ->
      aget cid_eqb c (s_inf s) = None ->
      o_to_ast (search cfg snap rf n) e c s = Ok (t, s1) ->
      find_examples_of_inferred_reduction cfg snap rf (search cfg snap rf n) e t s1 = Ok (r, s2) ->
      computed_inference c r.
  Definition computed_cache (k : cache) : Prop :=
    (forall x r, In (x, r) (k_red k) -> computed_reduction true x r) /\
    (forall c t, In (c, t) (k_syn k) -> computed_tree true c t) /\
    (forall c r, In (c, r) (k_inf k) -> computed_inference c r).
End Computed.
(** The changes [d] that were to be committed to the store [snap] lead to the store [s'] of now, or there were none and it is this store. *)
Definition leading_to (b : bool) (s' : snapshot) (cfg : config) (fuel : nat) (snap : snapshot) (d : delta) : Prop :=
  fair cfg /\ dbg cfg = b /\ apply b d snap = Ok s'.

(** ** Proofs *)
Scheme computed_reduction_min := Minimality for computed_reduction Sort Prop
  with computed_tree_min := Minimality for computed_tree Sort Prop
  with computed_inference_min := Minimality for computed_inference Sort Prop.
Combined Scheme computed_min from computed_reduction_min, computed_tree_min, computed_inference_min.
Lemma computed_more (M M' : config -> nat -> snapshot -> delta -> Prop) : (forall a b c d, M a b c d -> M' a b c d) ->
  (forall own k r, computed_reduction M own k r -> computed_reduction M' own k r) /\
  (forall own c t, computed_tree M own c t -> computed_tree M' own c t) /\
  (forall c r, computed_inference M c r -> computed_inference M' c r).
Proof.
  intros H. apply computed_min; intros; [eapply ComputedReduction|eapply ComputedTree|eapply ComputedInference]; eauto.
Qed.
Lemma computed_cache_more (M M' : config -> nat -> snapshot -> delta -> Prop) k : (forall a b c d, M a b c d -> M' a b c d) ->
  computed_cache M k -> computed_cache M' k.
Proof. intros H (H1 & H2 & H3). destruct (computed_more M M' H) as (K1 & K2 & K3). split; [|split]; eauto. Qed.

Section Laws.
  Variables (cfg : config) (rf : nat) (snap : snapshot) (d : delta) (M : config -> nat -> snapshot -> delta -> Prop).
  Hypothesis N : self_numbered snap.
  Hypothesis now : M cfg rf snap d.
  Definition computed_state (s : sstate) : Prop :=
    (forall h k r, In (k, r) (nth h (s_red s) []) -> computed_reduction M (Nat.eqb h 0) k r) /\
    (forall h c t, In (c, t) (nth h (s_syn s) []) -> computed_tree M (Nat.eqb h 0) c t) /\
    (forall c r, In (c, r) (s_inf s) -> computed_inference M c r) /\
    s_red s <> [] /\ s_syn s <> [].
  Lemma computed_laws :
    cache_laws cfg snap rf computed_state (fun _ _ => True) (placed d) (placed_new d) (fun h => h <> 0).
  Proof.
    constructor; try (intros; exact I).
    - intros s n H. auto.
    - intros s h s' (H1 & H2 & H3 & H4 & H5) [= <- <-]. split; [|split; [|exact I]].
      + destruct (s_red s); [congruence|discriminate].
      + split; [|repeat (split; [assumption|])].
        * intros h k r X. cbn [s_red] in X. apply in_more in X. eauto.
        * split; [|assumption]. cbn. destruct (s_red s); [congruence|discriminate].
    - intros e h d' s e' s' (W & P1 & P2) Hh Hw (H1 & H2 & H3 & H4 & H5) E. unfold spawn in E.
      apply sb in E. destruct E as (sy & s1 & [= <- <-] & [= <- <-]). split; [|split; [|exact I]].
      + split; [eapply widens_trans; eassumption|]. split; [exact Hh|]. cbn.
        destruct (s_syn s); [congruence|discriminate].
      + split; [assumption|]. split; [|repeat (split; [assumption|])].
        * intros i c t X. cbn [s_syn] in X. apply in_more in X. eauto.
        * cbn. destruct (s_syn s); [congruence|discriminate].
    - intros e (W & P1 & P2). split; [exact W|]. split; intros; contradiction.
    - intros e e0 vm ml t g s s1 _ H _ _ _. exact H.
    - intros e k H. exact H.
    - intros e c H. destruct c; exact H.
    - intros n e t s r s1 s2 Pe (H1 & H2 & H3 & H4 & H5) Mi (K1 & K2 & K3 & K4 & K5) _ E R.
      split; [|exact I]. unfold insert_reduction in E. injection E as <-.
      match goal with |- context [if ?b then _ else _] => destruct b eqn:B end; [|repeat (split; [assumption|]); assumption].
      split; [|repeat (split; [assumption|])].
      + intros h k q X. cbn [s_red] in X. apply in_upd in X. destruct X as [X|[-> X]]; [eauto|].
        apply (in_aset _ key_eqb_spec) in X. destruct X as [[-> ->]|X]; [|eauto].
        eapply ComputedReduction; [exact now|apply placed_red, Pe|exact H1|exact H2|exact H3|exact H4|exact H5|exact Mi|exact R].
      + split; [|assumption]. cbn [s_red]. intros X. apply K4. apply length_zero_iff_nil.
        rewrite <- (length_upd_nth (hd 0 (e_reds e)) (aset key_eqb (t_key t) r)), X. reflexivity.
    - intros n e c m t s s1 s2 Pe (H1 & H2 & H3 & H4 & H5) Mm Mi Rd (K1 & K2 & K3 & K4 & K5) _ E _ R.
      split; [|exact I]. unfold insert_syntax in E. injection E as <-.
      destruct (m_anonymous m); [repeat (split; [assumption|]); assumption|].
      apply (read_id _ _ _ _ _ N) in Rd. rewrite Rd in *.
      split; [assumption|]. split; [|repeat (split; [assumption|])].
      + intros h k q X. cbn [s_syn] in X. apply in_upd in X. destruct X as [X|[-> X]]; [eauto|].
        apply (in_aset _ cid_eqb_spec) in X. destruct X as [[-> ->]|X]; [|eauto].
        eapply ComputedTree; [exact now|apply placed_syn, Pe|exact H1|exact H2|exact H3|exact H4|exact H5|exact Mm|exact Mi|exact R].
      + cbn [s_syn]. intros X. apply K5. apply length_zero_iff_nil.
        rewrite <- (length_upd_nth (e_syn e) (aset cid_eqb c t)), X. reflexivity.
    - intros n e c t r s s1 s2 Pe Mi (H1 & H2 & H3 & H4 & H5) _ _ (K1 & K2 & K3 & K4 & K5) _ E1 E2.
      split; [|exact I]. split; [assumption|]. split; [assumption|]. split; [|split; assumption].
      intros k q X. cbn [s_inf] in X. apply (in_aset _ cid_eqb_spec) in X. destruct X as [[-> ->]|X]; [|eauto].
      eapply (ComputedInference _ _ _ _ _ false); [exact now|exact Pe|exact H1|exact H2|exact H3|exact H4|exact H5|exact Mi|exact E1|exact E2].
  Qed.
End Laws.
Section Run.
  Variables (cfg : config) (fuel : nat) (snap : snapshot) (old : config -> nat -> snapshot -> delta -> Prop).
  Hypothesis N : self_numbered snap.
  Definition or_now (c : ctx) (a : config) (f : nat) (s : snapshot) (d : delta) : Prop :=
    (recorded c = [] /\ old a f s d) \/ (a = cfg /\ f = fuel /\ s = snap /\ d = c_delta c).
  Lemma computed_run_laws :
    run_laws cfg fuel (fun c => c_snap c = snap /\ computed_cache (or_now c) (c_cache c)) (fun _ _ => True)
      (fun c => computed_state (or_now c)) (fun _ _ _ => True)
      (fun c => placed (c_delta c)) (fun c => placed_new (c_delta c)) (fun _ h => h <> 0).
  Proof.
    constructor; try (intros; exact I).
    - intros x c r c' [H _] E. unfold update in E. apply obind_ok in E. destruct E as ([id d'] & _ & [= <- <-]).
      split; [|exact I]. split; [exact H|]. repeat split; intros ? ? [].
    - intros c [H _]. rewrite H. apply computed_laws; [exact N|]. right. auto.
    - intros c _. split; [constructor|]. split; intros _; eexists; reflexivity.
    - intros c [_ (H1 & H2 & H3)]. split; [|split; [|split; [exact H3|split; discriminate]]].
      + intros [|[|h]] k r X; cbn in X; try contradiction. apply H1, X.
      + intros [|[|h]] k r X; cbn in X; try contradiction. apply H2, X.
    - intros c s [H _] (H1 & H2 & H3 & H4 & H5) _. split; [|exact I]. split; [exact H|].
      split; [|split; [|exact H3]]; cbn [final_cache k_red k_syn c_cache].
      + intros x r X. apply (H1 0). destruct (s_red s); exact X.
      + intros x r X. apply (H2 0). destruct (s_syn s); exact X.
    - intros c v b p H. split; [exact H|exact I].
  Qed.
  Lemma run_computed q c z c1 : c_snap c = snap -> recorded c = [] -> computed_cache old (c_cache c) -> run_command cfg fuel q c = Ok (z, c1) ->
    c_snap c1 = snap /\ computed_cache (or_now c1) (c_cache c1).
  Proof.
    intros S Z H E. assert (H' : computed_cache (or_now c) (c_cache c)) by (eapply computed_cache_more; [|exact H]; left; auto).
    destruct (ck_run _ _ _ _ _ _ _ _ _ computed_run_laws q c z c1 (conj S H') E) as [X _]. exact X.
  Qed.
End Run.
Lemma ready_recorded c : ready c -> recorded c = [].
Proof. intros R. unfold recorded. rewrite (ready_delta _ R). reflexivity. Qed.
Lemma reachable_computed b c : reachable b c -> computed_cache (leading_to b (c_snap c)) (c_cache c).
Proof.
  induction 1 as [|cfg fuel q c a c' F D RC IH E]; [repeat split; intros ? ? []|].
  pose proof (reachable_ready _ _ RC) as R.
  destruct (execute_parts _ _ _ _ _ _ E) as (z & c1 & E1 & A & _ & K). rewrite K.
  destruct (run_computed cfg fuel (c_snap c) _ (sane_numbers _ (ready_sane _ R)) q c z c1 eq_refl (ready_recorded _ R) IH E1) as [S H].
  eapply computed_cache_more; [|exact H]. intros a' f s d [[Z X]|(-> & -> & -> & ->)].
  - destruct (execute_quiet _ _ _ _ _ _ _ _ R E E1 Z) as (A1 & _). rewrite A1. exact X.
  - split; [exact F|]. split; [exact D|]. rewrite <- D, <- S. exact A.
Qed.
