(** Where the contents of the caches come from. *)
From Verif Require Import Snapshot Search Questions StoreSpec MapFacts AstFacts StoreFacts StoreInv
  LexerFacts SearchKeeps SearchCaches Repeat.
From Coq Require Import List PeanoNat Lia Bool.
Import ListNotations.
Local Open Scope zia_scope.

(** ** Specification *)
Section Earned.
  Variables (cfg : config) (snap : snapshot) (rf : nat).
  Notation ops n := (search cfg snap rf n).
  (** The store is [snap] with the changes [d]. *)
  Variable d : delta.

  (** The environments that the evaluator works in.  [own] ones are those of a question put to
      the context: no variable has a value, nothing is assumed, and the caches are the
      context's.  The others are set up while a rule or an inference is tried; they may know
      more bound variables, and they do not write to the context's caches of reductions and trees. *)
  Definition placed (e : env) : Prop :=
    widens d (e_delta e) /\
    (hd 0 (e_reds e) = 0 -> exists bound, e = new_env d bound) /\
    (e_syn e = 0 -> exists bound, e = new_env d bound).
  Definition setting (own : bool) (e : env) : Prop :=
    if own then exists bound, e = new_env d bound else placed e.

  (** The result [r] for the key [k] was found by evaluating a tree with this key, which was
      not in the caches, and everything that was in the caches came about in the same way. *)
  Inductive earned_reduction : bool -> key -> rresult -> Prop :=
  | EarnedReduction own n e t s r s' :
      setting own e ->
      (forall h k' r', In (k', r') (nth h (s_red s) []) -> earned_reduction (Nat.eqb h 0) k' r') ->
      (forall h c t', In (c, t') (nth h (s_syn s) []) -> earned_tree (Nat.eqb h 0) c t') ->
      (forall c r', In (c, r') (s_inf s) -> earned_inference c r') ->
      s_red s <> [] -> s_syn s <> [] ->
      lookup_red (e_reds e) (t_key t) (s_red s) = None ->
      o_reduce (ops n) e t s = Ok (r, s') ->
      earned_reduction own (t_key t) r
  (** The tree [t] was made for the concept [c]. *)
  with earned_tree : bool -> cid -> tree -> Prop :=
  | EarnedTree own n e c t s s' :
      setting own e ->
      (forall h k' r', In (k', r') (nth h (s_red s) []) -> earned_reduction (Nat.eqb h 0) k' r') ->
      (forall h c' t', In (c', t') (nth h (s_syn s) []) -> earned_tree (Nat.eqb h 0) c' t') ->
      (forall c' r', In (c', r') (s_inf s) -> earned_inference c' r') ->
      s_red s <> [] -> s_syn s <> [] ->
      ml_get (e_mask e) c = None -> aget cid_eqb c (nth (e_syn e) (s_syn s) []) = None ->
      o_to_ast (ops n) e c s = Ok (t, s') ->
      earned_tree own c t
  (** The result [r] was inferred for the concept [c]. *)
  with earned_inference : cid -> rresult -> Prop :=
  | EarnedInference own n e c t r s s1 s2 :
      setting own e ->
      (forall h k' r', In (k', r') (nth h (s_red s) []) -> earned_reduction (Nat.eqb h 0) k' r') ->
      (forall h c' t', In (c', t') (nth h (s_syn s) []) -> earned_tree (Nat.eqb h 0) c' t') ->
      (forall c' r', In (c', r') (s_inf s) -> earned_inference c' r') ->
      s_red s <> [] -> s_syn s <> [] ->
      aget cid_eqb c (s_inf s) = None ->
      o_to_ast (ops n) e c s = Ok (t, s1) ->
      find_examples_of_inferred_reduction cfg snap rf (ops n) e t s1 = Ok (r, s2) ->
      earned_inference c r.

  Definition earned_state (s : sstate) : Prop :=
    (forall h k r, In (k, r) (nth h (s_red s) []) -> earned_reduction (Nat.eqb h 0) k r) /\
    (forall h c t, In (c, t) (nth h (s_syn s) []) -> earned_tree (Nat.eqb h 0) c t) /\
    (forall c r, In (c, r) (s_inf s) -> earned_inference c r) /\
    s_red s <> [] /\ s_syn s <> [].
  Definition earned_cache (k : cache) : Prop :=
    (forall x r, In (x, r) (k_red k) -> earned_reduction true x r) /\
    (forall c t, In (c, t) (k_syn k) -> earned_tree true c t) /\
    (forall c r, In (c, r) (k_inf k) -> earned_inference c r).
End Earned.

(** ** Proofs *)
Lemma change_id cfg m ch m' : m_change_reduction cfg m ch = Ok m' -> m_id m' = m_id m.
Proof.
  destruct m as [o chs comp red|c]; cbn; intros E.
  - injection E as <-. reflexivity.
  - apply obind_ok in E. destruct E as (c' & E & [= <-]). cbn. unfold change_reduction in E.
    destruct (c_spec c) eqn:S; [now injection E as <-|..|now injection E as <-].
    destruct ch; [now injection E as <-|now injection E as <-|].
    apply obind_ok in E. destruct E as (u & _ & [= <-]). reflexivity.
Qed.
Lemma indirect_id cfg m x m' : m_apply_indirect cfg m x = Ok m' -> m_id m' = m_id m.
Proof.
  destruct m as [o chs comp red|c]; cbn; intros E.
  - injection E as <-. destruct x; reflexivity.
  - apply obind_ok in E. destruct E as (c' & E & [= <-]). cbn. destruct x; cbn in E;
      try (injection E as <-; reflexivity);
      try (apply obind_ok in E; destruct E as (u & _ & [= <-]); reflexivity).
    destruct (c_spec c); [discriminate|now injection E as <-|discriminate].
Qed.
Lemma read_steps_id cfg k cds : forall m m',
  (forall x, m = Some x -> m_id x = k) -> read_steps cfg k m cds = Ok m' ->
  forall x, m' = Some x -> m_id x = k.
Proof.
  induction cds as [|cd cds IH]; intros m m' H E x X.
  - injection E as <-. apply H, X.
  - cbn [read_steps] in E. apply obind_ok in E. destruct E as (m1 & E1 & E2).
    refine (IH m1 m' _ E2 x X). clear - H E1. intros y ->.
    destruct cd as [[nd|k' ch|k' ch|k']|i]; cbn in E1; oinv; subst; try discriminate.
    + destruct nd; reflexivity.
    + match goal with A : Some _ = Some _, B : m_change_reduction _ _ _ = _ |- _ =>
        injection A as <-; apply change_id in B; rewrite B end. apply H. reflexivity.
    + match goal with A : Some _ = Some _, B : m_apply_indirect _ _ _ = _ |- _ =>
        injection A as <-; apply indirect_id in B; rewrite B end. apply H. reflexivity.
Qed.
Lemma read_id cfg snap d c m : self_numbered snap -> read_concept cfg snap d c = Ok m -> m_id m = c.
Proof.
  intros N E. unfold read_concept in E. apply obind_ok in E. destruct E as (mo & E1 & E2).
  assert (G : forall x, get_concept snap c = Some x -> m_id x = c).
  { destruct c as [n|u]; cbn; [|discriminate]. intros x. 
    destruct (nth_error (concepts snap) n) as [o|] eqn:X; cbn; intros Y; try discriminate.
    injection Y as <-. cbn. f_equal. apply (N n o). exact X. }
  unfold maybe_read_concept in E1. destruct (delta_concept d c) as [cds|].
  - destruct mo as [m1|].
    + injection E2 as <-. eapply read_steps_id; [exact G|exact E1|reflexivity].
    + apply unwrap_ok in E2. apply G, E2.
  - injection E1 as <-. apply unwrap_ok in E2. apply G, E2.
Qed.

Lemma in_upd {A} i (f : list A -> list A) (l : list (list A)) h (x : A) :
  In x (nth h (upd_nth i f l) []) -> In x (nth h l []) \/ (h = i /\ In x (f (nth h l []))).
Proof.
  intros H. destruct (Nat.eq_dec i h) as [->|D].
  - destruct (Nat.lt_ge_cases h (length l)) as [L|L].
    + rewrite nth_upd_same in H by exact L. auto.
    + rewrite nth_overflow in H; [destruct H|]. rewrite length_upd_nth. lia.
  - rewrite nth_upd_other in H by exact D. auto.
Qed.
Lemma in_more {A} (l : list (list A)) h (x : A) : In x (nth h (l ++ [[]]) []) -> In x (nth h l []).
Proof.
  destruct (Nat.lt_ge_cases h (length l)) as [L|L]; [rewrite app_nth1 by exact L; auto|].
  rewrite app_nth2 by exact L. destruct (h - length l) as [|[|]]; intros [].
Qed.

Section Laws.
  Variables (cfg : config) (snap : snapshot) (rf : nat) (d : delta).
  Hypothesis N : self_numbered snap.
  Notation placed := (placed d).
  Definition placed_new (e : env) : Prop :=
    widens d (e_delta e) /\ hd 0 (e_reds e) <> 0 /\ e_syn e <> 0.
  Lemma widens_trans d1 d2 d3 : widens d1 d2 -> widens d2 d3 -> widens d1 d3.
  Proof. intros H K. induction K; eauto using widens. Qed.
  Lemma placed_red e : placed e -> setting d (Nat.eqb (hd 0 (e_reds e)) 0) e.
  Proof.
    intros Pe. unfold setting. destruct (Nat.eqb_spec (hd 0 (e_reds e)) 0); [apply (proj1 (proj2 Pe)); assumption|exact Pe].
  Qed.
  Lemma placed_syn e : placed e -> setting d (Nat.eqb (e_syn e) 0) e.
  Proof. intros Pe. unfold setting. destruct (Nat.eqb_spec (e_syn e) 0); [apply (proj2 (proj2 Pe)); assumption|exact Pe]. Qed.
  Lemma setting_placed own e : setting d own e -> placed e.
  Proof. destruct own; [|auto]. intros (b & ->). split; [constructor|]. split; intros _; exists b; reflexivity. Qed.
  Lemma earned_laws :
    cache_laws cfg snap rf (earned_state cfg snap rf d) (fun _ _ => True) placed placed_new (fun h => h <> 0).
  Proof.
    constructor; try (intros; exact I).
    - intros s n H. auto.
    - intros s h s' (H1 & H2 & H3 & H4 & H5) [= <- <-]. split; [|split; [|exact I]].
      + destruct (s_red s); [congruence|discriminate].
      + split; [|repeat (split; [assumption|])].
        * intros h k r X. cbn [s_red] in X. apply in_more in X. eauto.
        * split; [|assumption]. cbn. destruct (s_red s); [congruence|discriminate].
    - intros e h d' s e' s' (W & P1 & P2) Hh Hw (H1 & H2 & H3 & H4 & H5) E. unfold spawn in E.
      apply sb in E. destruct E as (sy & s1 & [= <- <-] & [= <- <-]). split; [|split; [|exact I]].
      + split; [eapply widens_trans; eassumption|]. split; [exact Hh|]. cbn.
        destruct (s_syn s); [congruence|discriminate].
      + split; [assumption|]. split; [|repeat (split; [assumption|])].
        * intros i c t X. cbn [s_syn] in X. apply in_more in X. eauto.
        * cbn. destruct (s_syn s); [congruence|discriminate].
    - intros e (W & P1 & P2). split; [exact W|]. split; intros; contradiction.
    - intros e e0 vm ml t g s s1 _ H _ _ _. exact H.
    - intros e k H. exact H.
    - intros e c H. destruct c; exact H.
    - intros n e t s r s1 s2 Pe (H1 & H2 & H3 & H4 & H5) M (K1 & K2 & K3 & K4 & K5) _ E R.
      split; [|exact I]. unfold insert_reduction in E. injection E as <-.
      match goal with |- context [if ?b then _ else _] => destruct b eqn:B end; [|repeat (split; [assumption|]); assumption].
      split; [|repeat (split; [assumption|])].
      + intros h k q X. cbn [s_red] in X. apply in_upd in X. destruct X as [X|[-> X]]; [eauto|].
        apply (in_aset _ key_eqb_spec) in X. destruct X as [[-> ->]|X]; [|eauto].
        eapply EarnedReduction; [apply placed_red, Pe|exact H1|exact H2|exact H3|exact H4|exact H5|exact M|exact R].
      + split; [|assumption]. cbn [s_red]. intros X. apply K4. apply length_zero_iff_nil.
        rewrite <- (length_upd_nth (hd 0 (e_reds e)) (aset key_eqb (t_key t) r)), X. reflexivity.
    - intros n e c m t s s1 s2 Pe (H1 & H2 & H3 & H4 & H5) Mm M Rd (K1 & K2 & K3 & K4 & K5) _ E _ R.
      split; [|exact I]. unfold insert_syntax in E. injection E as <-.
      destruct (m_anonymous m); [repeat (split; [assumption|]); assumption|].
      apply (read_id _ _ _ _ _ N) in Rd. rewrite Rd in *.
      split; [assumption|]. split; [|repeat (split; [assumption|])].
      + intros h k q X. cbn [s_syn] in X. apply in_upd in X. destruct X as [X|[-> X]]; [eauto|].
        apply (in_aset _ cid_eqb_spec) in X. destruct X as [[-> ->]|X]; [|eauto].
        eapply EarnedTree; [apply placed_syn, Pe|exact H1|exact H2|exact H3|exact H4|exact H5|exact Mm|exact M|exact R].
      + cbn [s_syn]. intros X. apply K5. apply length_zero_iff_nil.
        rewrite <- (length_upd_nth (e_syn e) (aset cid_eqb c t)), X. reflexivity.
    - intros n e c t r s s1 s2 Pe M (H1 & H2 & H3 & H4 & H5) _ _ (K1 & K2 & K3 & K4 & K5) _ E1 E2.
      split; [|exact I]. split; [assumption|]. split; [assumption|]. split; [|split; assumption].
      intros k q X. cbn [s_inf] in X. apply (in_aset _ cid_eqb_spec) in X. destruct X as [[-> ->]|X]; [|eauto].
      eapply (EarnedInference _ _ _ _ false); [exact Pe|exact H1|exact H2|exact H3|exact H4|exact H5|exact M|exact E1|exact E2].
  Qed.
End Laws.
