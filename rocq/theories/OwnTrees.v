(** The trees that are remembered for concepts without parts stand for these concepts. *)
From Verif Require Import Snapshot Search Context Questions StoreSpec MapFacts AstSpec AstFacts StoreFacts StoreInv
  RangeFacts History Sim SimRead Steps Keep Links Frames SearchKeeps SearchCaches Existence Wide Earned CacheRun Shapes.
From Coq Require Import String List PeanoNat Lia Bool.
Import ListNotations.
Local Open Scope zia_scope.

(** ** Reading through the layers of a search that starts with pending changes *)
Definition within (d : delta) (x : cid) : Prop :=
  match x with Committed _ => True | Uncommitted u => lt u (d_num (overlay d)) end.
Lemma widens_same d d' : widens d d' ->
  le (d_num (overlay d)) (d_num (overlay d')) /\ forall x, within d x -> delta_concept d' x = delta_concept d x.
Proof.
  induction 1 as [d|d d' W [A B]|d d1 v d2 W [A B] E].
  - auto.
  - split; [exact A|]. intros x Wx. rewrite <- (B x Wx). unfold delta_concept.
    cbn [delta_spawn layers layers_concept]. cbn [new_layer d_concept aget].
    destruct (layers_concept (layers d') x); reflexivity.
  - destruct d1 as [o i]. cbn in E. apply obind_ok in E.
    destruct E as ([id o'] & E & [= <- <-]). unfold insert_new in E. apply obind_ok in E.
    destruct E as (o1 & E & [= <- <-]). unfold insert_delta in E. cbn [d_concept d_string d_num d_order] in E.
    cbn [overlay] in A |- *.
    assert (X : d_num o1 = S (d_num o) /\ forall x, x <> Uncommitted (d_num o) -> aget cid_eqb x (d_concept o1) = aget cid_eqb x (d_concept o)).
    { destruct (aget cid_eqb (Uncommitted (d_num o)) (d_concept o)) as [cds|].
      - destruct (unsnoc cds) as [[q last]|]; [|discriminate]. destruct (is_remove last); [|discriminate]. injection E as <-.
        cbn [d_num d_concept]. split; [reflexivity|]. intros x Nx. rewrite (aget_aset cid_eqb cid_eqb_spec).
        destruct (cid_eqb_spec x (Uncommitted (d_num o))); [contradiction|reflexivity].
      - injection E as <-. cbn [d_num d_concept]. split; [reflexivity|]. intros x Nx. rewrite (aget_aset cid_eqb cid_eqb_spec).
        destruct (cid_eqb_spec x (Uncommitted (d_num o))); [contradiction|reflexivity]. }
    destruct X as [X1 X2]. split; [lia|]. intros x Wx. rewrite <- (B x Wx). unfold delta_concept.
    cbn [layers layers_concept]. rewrite X2; [reflexivity|]. intros ->. cbn in Wx. lia.
Qed.

Section OwnTrees.
  Variables (cfg : config) (snap : snapshot) (rf : nat).
  Notation ops n := (search cfg snap rf n).
  Hypothesis N : self_numbered snap.
  Lemma widens_read d d' x : widens d d' -> within d x -> read_concept cfg snap d' x = read_concept cfg snap d x.
  Proof.
    intros W Wx. unfold read_concept, maybe_read_concept. rewrite (proj2 (widens_same _ _ W) x Wx). reflexivity.
  Qed.

  (** A concept that has no parts and is no free variable. *)
  Definition plain (d : delta) (x : cid) : Prop :=
    within d x /\ exists m, read_concept cfg snap d x = Ok m /\ m_composition m = None /\ m_free m = false.
  Section Delta.
    Variable d : delta.
    Definition own (e : env) : Prop :=
      widens d (e_delta e) /\ forall x t, ml_get (e_mask e) x = Some t -> ~ plain d x.
    Definition own_entry (x : cid) (t : tree) : Prop :=
      (plain d x -> exists s k, t = TLeaf s (Some x) k) /\ (within d x -> exists m, read_concept cfg snap d x = Ok m).
    Definition own_trees (s : sstate) : Prop := forall h x t, In (x, t) (nth h (s_syn s) []) -> own_entry x t.

    Lemma leaf_concept m : exists s k, new_syntax_from_leaf_concept m = TLeaf s (Some (m_id m)) k.
    Proof.
      unfold new_syntax_from_leaf_concept. destruct (opt_cct_eqb _ _); [|destruct (m_anonymous _)];
        unfold new_quantifier_concept, new_leaf_variable, new_constant_concept; eauto.
    Qed.
    Lemma own_tree n e x s t s' : own e -> own_trees s -> plain d x -> o_to_ast (ops n) e x s = Ok (t, s') -> exists w k, t = TLeaf w (Some x) k.
    Proof.
      intros [W M] H Px E. destruct n as [|n]; [discriminate|]. cbn [search step o_to_ast] in E. unfold to_ast in E.
      destruct (ml_get (e_mask e) x) as [u|] eqn:G; [destruct (M _ _ G Px)|].
      apply sb in E. destruct E as (cached & s1 & C & E). injection C as C <-. destruct cached as [u|].
      { injection E as -> _. apply (aget_in _ cid_eqb_spec) in C. exact (proj1 (H _ _ _ C) Px). }
      apply sb in E. destruct E as (m & s1 & R & E). apply read_ok in R. destruct R as [R ->]. unfold known in R.
      pose proof Px as (Wx & m' & R' & Cm & Fm). rewrite (widens_read _ _ _ W Wx), R' in R. injection R as <-.
      apply sb in E. destruct E as (lab & s1 & El & E). apply sb in E. destruct E as (u & s2 & Eu & E).
      apply sb in E. destruct E as (y & s3 & _ & E). injection E as -> _.
      destruct lab as [w|].
      - unfold slift in Eu. apply obind_ok in Eu. destruct Eu as (v & Eu & [= -> _]).
        unfold bind_concept_to_syntax in Eu. apply obind_ok in Eu. destruct Eu as (ty & _ & Eu).
        destruct (opt_cct_eqb ty _).
        + unfold bind_quantifier in Eu. apply obind_ok in Eu. destruct Eu as (q & _ & [= <-]). eauto.
        + injection Eu as <-. cbn. eauto.
      - rewrite Cm in Eu. injection Eu as <- _. destruct (leaf_concept m') as (w & k & ->).
        rewrite (read_id _ _ _ _ _ N R'). eauto.
    Qed.

    Lemma own_free e g s s' s1 s2 : own e ->
      is_free_variable cfg snap e g s = Ok (true, s') -> composition_of_concept cfg snap e g s1 = Ok (None, s2) -> ~ plain d g.
    Proof.
      intros [W _] E C (Wx & m & R & Cm & Fm). unfold is_free_variable in E. apply sb in E. destruct E as (m' & s3 & R' & E).
      apply read_ok in R'. destruct R' as [R' ->]. unfold known in R'. rewrite (widens_read _ _ _ W Wx), R in R'. injection R' as <-.
      rewrite Fm in E. discriminate.
    Qed.
    Lemma own_masks e : own e -> forall t g s vm s',
      check_generalisation cfg snap e t g s = Ok (Some vm, s') -> forall c v, In (c, v) vm -> ~ plain d c.
    Proof.
      intros Se. induction t as [x c k|x c l IHl r IHr fv bv]; intros g s vm s' E c0 v0 I; cbn [check_generalisation] in E;
        (apply sb in E; destruct E as (f & s1 & Ef & E); destruct f; [|discriminate]; cbn [negb] in E;
         destruct (smem _ _ _); [discriminate|]; apply sb in E; destruct E as (bb & s2 & Eb & E); destruct bb; [discriminate|];
         apply sb in E; destruct E as (comp & s3 & Ec & E); destruct comp as [[gl gr]|];
         [|injection E as <- _; destruct I as [[= <- <-]|[]]; exact (own_free _ _ _ _ _ _ Se Ef Ec)]).
      { discriminate. }
      apply sb in E. destruct E as (fl & s4 & _ & E). apply sb in E. destruct E as (fr & s5 & _ & E).
      destruct fl, fr.
      - apply sb in E. destruct E as (lm & s6 & El & E). apply sb in E. destruct E as (rm & s7 & Er & E).
        destruct lm as [lm|]; [|discriminate]. destruct rm as [rm|]; [|discriminate]. injection E as E _.
        destruct (merge_keys _ _ _ _ _ E I) as [X|X]; apply in_map_iff in X; destruct X as ([k w] & <- & X); cbn.
        + exact (IHl _ _ _ _ El _ _ X).
        + exact (IHr _ _ _ _ Er _ _ X).
      - destruct (option_eqb _ _ _); [|discriminate]. exact (IHl _ _ _ _ E _ _ I).
      - destruct (option_eqb _ _ _); [|discriminate]. exact (IHr _ _ _ _ E _ _ I).
      - destruct (_ && _); [|discriminate]. injection E as <- _. destruct I.
    Qed.

    Lemma own_laws : cache_laws cfg snap rf own_trees (fun _ _ => True) own own (fun _ => True).
    Proof.
      constructor; try (intros; exact I); try (intros; assumption).
      - intros s n H. split; [exact H|exact I].
      - intros s h s' H [= <- <-]. split; [exact I|]. split; [exact H|exact I].
      - intros e h d' s e' s' [W M] _ Wd H E. unfold spawn in E. apply sb in E. destruct E as (sy & s1 & [= <- <-] & [= <- <-]).
        split; [split; [exact (widens_trans _ _ _ W Wd)|exact M]|]. split; [|exact I].
        intros h' x t J. cbn [s_syn] in J. apply in_more in J. exact (H _ _ _ J).
      - intros e e0 vm ml t g s s1 Se [W M] _ E Pu. split; [exact W|]. intros x u G. cbn [with_mask e_mask] in G.
        unfold ml_push in Pu. destruct (ml_contains _ _); [discriminate|]. injection Pu as <-. cbn [ml_get] in G.
        destruct (aget cid_eqb x vm) as [w|] eqn:A; [|exact (M _ _ G)]. apply (aget_in _ cid_eqb_spec) in A.
        exact (own_masks e Se _ _ _ _ _ E _ _ A).
      - intros e c H. destruct c; exact H.
      - intros n e t s r s1 s2 _ _ _ H1 _ E _. split; [|exact I]. unfold insert_reduction in E. injection E as <-.
        match goal with |- context [if ?b then _ else _] => destruct b end; exact H1.
      - intros n e c m t s s1 s2 Se H _ _ R H1 _ E K T. split; [|exact I].
        unfold insert_syntax in E. injection E as <-. destruct (m_anonymous m); [exact H1|].
        pose proof (read_id _ _ _ _ _ N R) as Id. rewrite Id. intros h x u J. cbn [s_syn] in J. apply in_upd in J.
        destruct J as [J|[-> J]]; [exact (H1 _ _ _ J)|]. apply (in_aset _ cid_eqb_spec) in J.
        destruct J as [[-> ->]|J]; [|exact (H1 _ _ _ J)]. split.
        + intros Px. exact (own_tree (S n) e c s t _ Se H Px T).
        + intros Wx. exists m. rewrite <- (widens_read _ _ _ (proj1 Se) Wx). exact R.
      - intros n e c t r s s1 s2 _ _ _ _ _ H _ _ _. split; [exact H|exact I].
    Qed.
  End Delta.
End OwnTrees.

(** ** Throughout a command *)
Section Run.
  Variables (cfg : config) (fuel : nat) (snap : snapshot).
  Hypothesis N : self_numbered snap.
  Definition own_cache (c : ctx) : Prop :=
    forall x t, In (x, t) (k_syn (c_cache c)) -> own_entry cfg (c_snap c) (c_delta c) x t.
  Lemma own_run_laws :
    run_laws cfg fuel (fun c => c_snap c = snap /\ own_cache c) (fun _ _ => True)
      (fun c => own_trees cfg (c_snap c) (c_delta c)) (fun _ _ _ => True)
      (fun c => own cfg (c_snap c) (c_delta c)) (fun c => own cfg (c_snap c) (c_delta c)) (fun _ _ => True).
  Proof.
    constructor; try (intros; exact I).
    - intros x c r c' [H _] E. unfold update in E. apply obind_ok in E. destruct E as ([id d'] & _ & [= <- <-]).
      split; [|exact I]. split; [exact H|]. intros y t [].
    - intros c [H _]. apply own_laws. rewrite H. exact N.
    - intros c _. split; [constructor|]. intros x t G. discriminate G.
    - intros c [_ H] [|[|h]] x t X; cbn in X; try contradiction. apply H, X.
    - intros c s [H _] H1 _. split; [|exact I]. split; [exact H|]. intros x t X. apply (H1 0).
      cbn [final_cache k_syn c_cache] in X. destruct (s_syn s); exact X.
    - intros c v b p H. split; [exact H|exact I].
  Qed.
End Run.

(** ** From command to command *)
(** The concept [n] has no parts and is no free variable. *)
Definition elementary (s : snapshot) (n : nat) : Prop := comp_at s n = None /\ char_at s n <> Some FreeVariable.
Definition own_context (c : ctx) : Prop :=
  forall n t, In (Committed n, t) (k_syn (c_cache c)) ->
    lookup (c_snap c) n <> None /\ (elementary (c_snap c) n -> exists s k, t = TLeaf s (Some (Committed n)) k).

Lemma honest_steps cfg id cds : forall m m',
  match m with Some (MPrev o _ None _) => get_composition o = None | _ => True end ->
  read_steps cfg id m cds = Ok m' -> match m' with Some (MPrev o _ None _) => get_composition o = None | _ => True end.
Proof.
  induction cds as [|cd cds IH]; intros m m' H E; [injection E as <-; exact H|].
  cbn in E. apply obind_ok in E. destruct E as (m1 & E1 & E2). apply (IH _ _) in E2; [exact E2|]. clear - H E1.
  unfold read_step, omap in E1. destruct cd as [[nd|j ch|j ch|j]|i]; oinv; subst; try exact I; try discriminate.
  - match goal with X : m_change_reduction _ ?y _ = Ok _ |- _ => destruct y as [o chs comp red|u]; cbn in X; unfold omap in X; oinv; subst end; [|exact I].
    destruct comp; exact H.
  - match goal with X : m_apply_indirect _ ?y _ = Ok _ |- _ => destruct y as [o chs comp red|u]; cbn in X; unfold omap in X; oinv; subst end; [|exact I].
    destruct i, comp; exact H || exact I.
Qed.
Lemma honest cfg snap d x m : read_concept cfg snap d x = Ok m -> m_composition m = None -> m_free m = true ->
  exists red, m_spec m = Abstract (Leaf FreeVariable) red.
Proof.
  intros R C Fm. assert (H : match m with MPrev o _ None _ => get_composition o = None | _ => True end).
  { assert (G : match get_concept snap x with Some (MPrev o _ None _) => get_composition o = None | _ => True end).
    { destruct x as [n|u]; cbn; [|exact I]. destruct (nth_error (concepts snap) n) as [o|]; cbn; [|exact I].
      destruct (get_composition o) as [[? ?]|]; [exact I|reflexivity]. }
    unfold read_concept, maybe_read_concept in R. apply obind_ok in R. destruct R as (mo & R1 & R2).
    destruct (delta_concept d x) as [cds|].
    - pose proof (honest_steps _ _ _ _ _ G R1) as X. destruct mo as [m'|]; [injection R2 as ->; exact X|].
      destruct (get_concept snap x) as [m'|]; cbn in R2; [injection R2 as ->; exact G|discriminate].
    - injection R1 as <-. destruct (get_concept snap x) as [m'|]; cbn in R2; [injection R2 as ->; exact G|discriminate]. }
  destruct m as [o chs comp red|u]; cbn in C, Fm, H |- *.
  - subst comp. unfold free_variable, get_composition in *. destruct (c_spec o) as [|[l r fv bv|[]] rd|]; try discriminate. eauto.
  - unfold free_variable, get_composition in *. destruct (c_spec u) as [|[l r fv bv|[]] rd|]; try discriminate. cbn. eauto.
Qed.

Lemma plain_there cfg snap d s x m :
  linked cfg snap false d s -> read_concept cfg snap d x = Ok m -> elementary s (rho snap x) -> plain cfg snap d x.
Proof.
  intros LK R [C V]. destruct (linked_read _ _ _ _ _ _ _ LK R) as (Dx & cc & L & S). split.
  - destruct x as [n|u]; cbn in *; [exact I|exact Dx].
  - exists m. split; [exact R|]. destruct (linked_comp _ _ _ _ _ _ _ LK R) as (_ & CM). rewrite C in CM.
    assert (Z : m_composition m = None) by (destruct (m_composition m) as [[? ?]|]; [discriminate|reflexivity]).
    split; [exact Z|]. destruct (m_free m) eqn:Fm; [|reflexivity]. exfalso. apply V.
    destruct (honest _ _ _ _ _ R Z Fm) as (red & E). pose proof (sim_spec _ _ _ _ _ S) as SP. rewrite E in SP.
    unfold char_at. rewrite L. cbn in SP. destruct (c_spec cc) as [|[] ?|]; cbn in SP; try discriminate. injection SP as -> _. reflexivity.
Qed.
Lemma plain_start cfg snap x : plain cfg snap delta_default x -> exists n, x = Committed n /\ elementary snap n.
Proof.
  intros (W & m & R & C & Fm). destruct x as [n|u]; [|cbn in W; lia]. exists n. split; [reflexivity|].
  unfold read_concept, maybe_read_concept in R. cbn in R. unfold elementary, comp_at, char_at, lookup.
  destruct (nth_error (concepts snap) n) as [o|]; [|discriminate]. injection R as <-. cbn in C, Fm.
  destruct (get_composition o) as [[? ?]|]; [discriminate|]. split; [reflexivity|].
  unfold free_variable in Fm. destruct (c_spec o) as [|[l r fv bv|[]] rd|]; discriminate.
Qed.
Lemma own_start cfg c : c_delta c = delta_default -> own_context c -> own_cache cfg c.
Proof.
  intros D H x t J. unfold own_entry. rewrite D. split.
  - intros Px. destruct (plain_start _ _ _ Px) as (n & -> & El). exact (proj2 (H _ _ J) El).
  - intros W. destruct x as [n|u]; [|cbn in W; lia]. destruct (H _ _ J) as [L _].
    unfold lookup in L. unfold read_concept, maybe_read_concept. cbn. destruct (nth_error (concepts (c_snap c)) n) as [o|]; [cbn; eauto|congruence].
Qed.
Lemma own_end cfg c c' s :
  own_cache cfg c -> linked cfg (c_snap c) false (c_delta c) s -> concepts (c_snap c') = concepts s -> c_cache c' = c_cache c ->
  own_context c'.
Proof.
  intros H LK CC K n t J. rewrite K in J. destruct (H _ _ J) as [H1 H2]. destruct (H2 I) as (m & R).
  pose proof (same_concepts_at _ _ CC) as L. destruct (linked_read _ _ _ _ _ _ _ LK R) as (_ & cc & Lk & _).
  split; [rewrite L; intros X; change (rho (c_snap c) (Committed n)) with n in Lk; rewrite X in Lk; discriminate Lk|]. intros El. apply H1. apply (plain_there _ _ _ s _ m LK R).
  unfold elementary, comp_at, char_at in *. rewrite L in El. exact El.
Qed.
Lemma own_run cfg fuel q c z c1 :
  fair cfg -> ready c -> own_context c -> run_command cfg fuel q c = Ok (z, c1) -> c_snap c1 = c_snap c /\ own_cache cfg c1.
Proof.
  intros F RD H E. pose proof (sane_numbers _ (ready_sane c RD)) as N.
  destruct (ck_run _ _ _ _ _ _ _ _ _ (own_run_laws cfg fuel (c_snap c) N) q c z c1
    (conj eq_refl (own_start cfg c (ready_delta c RD) H)) E) as [X _]. exact X.
Qed.
Theorem reachable_own b c : reachable b c -> own_context c.
Proof.
  intros R. induction R as [|cfg fuel t c r c' F D R IH E]; [intros n t []|].
  pose proof (reachable_ready _ _ R) as RD.
  destruct (execute_run cfg fuel t c r c' F RD E) as (z & c1 & E1 & Es & _ & _ & _ & _ & _ & _ & K).
  destruct (execute_frame cfg fuel t c r c' F RD E) as (z' & c1' & E1' & _ & _ & s1 & LK & _ & CC & _).
  rewrite E1 in E1'. injection E1' as <- <-.
  destruct (own_run cfg fuel t c z c1 F RD IH E1) as [_ O]. apply (own_end cfg c1 c' s1 O); [rewrite Es; exact LK|exact CC|exact K].
Qed.
