(** Commands that ask for a name: `label_of x` (C56). *)
From Verif Require Import Start Snapshot Search Context StoreSpec NameSpec FrameSpec MapFacts AstFacts StoreFacts RangeFacts
  History Sim SimRead Steps Quiet SearchPlain Frames Names OneName Links StoreLaws Meaning Indirect Sample PropertiesStore.
From Coq Require Import String List Bool Relations.
Import ListNotations.
Local Open Scope string_scope.

(** ** Specification *)
(** Nothing is recorded as the label of [n]. *)
Definition no_label (s : snapshot) (n : nat) : Prop :=
  forall lab comp, built_in s lab CLabel -> ~ composed s comp lab n.
(** [n] goes by the name [t]: it carries it as its label or, if nothing is recorded as its label, it
    reduces to something that goes by it. *)
Inductive goes_by (s : snapshot) : nat -> text -> Prop :=
| GoesByLabel n t : carries_label s n t -> goes_by s n t
| GoesByReduction n m t : no_label s n -> reduces s n m -> goes_by s m t -> goes_by s n t.
(** Neither [n] nor anything it reduces to has a label. *)
Inductive nameless (s : snapshot) : nat -> Prop :=
| NamelessEnd n : no_label s n -> (forall m, ~ reduces s n m) -> nameless s n
| NamelessReduction n m : no_label s n -> reduces s n m -> nameless s m -> nameless s n.
Definition quoted (t : text) : text := (txt "'" ++ t ++ txt "'")%list.

(** ** Looking up the name in a committed store *)
Section Store.
  Variable s : snapshot.
  Variable cfg : config.
  Hypothesis F : fair cfg.
  Hypothesis LC : compositions_are_listed s.
  Hypothesis LR : listed_compositions_are_real s.
  Hypothesis UC : compositions_are_unique s.
  Hypothesis UL : forall a b, built_in s a CLabel -> built_in s b CLabel -> a = b.
  Variable lab : nat.
  Hypothesis CI : concrete_concept_id cfg s delta_default CLabel = Ok (Some (Committed lab)).
  Hypothesis BL : built_in s lab CLabel.

  Lemma no_hand n m : no_label s n -> read_concept cfg s delta_default (Committed n) = Ok m ->
    m_find_as_hand m (Committed lab) HRight = None.
  Proof.
    intros N R. apply read_back in R. destruct R as (c & L & ->). cbn. unfold find_as_hand.
    cbn [hand_of]. destruct (aget Nat.eqb lab (righthand_of c)) as [k|] eqn:A; [|reflexivity].
    exfalso. apply (N lab k BL). apply LR. right. exists c. split; [exact L|exact A].
  Qed.
  Lemma reduction_read n m k : reduces s n k -> read_concept cfg s delta_default (Committed n) = Ok m ->
    m_reduction m = Some (Committed k).
  Proof.
    intros (c & x & L & S) R. apply read_back in R. destruct R as (c' & L' & ->). rewrite L in L'. injection L' as <-.
    cbn. unfold get_reduction. rewrite S. reflexivity.
  Qed.
  Lemma no_reduction_read n m : (forall k, ~ reduces s n k) -> read_concept cfg s delta_default (Committed n) = Ok m ->
    m_reduction m = None.
  Proof.
    intros N R. apply read_back in R. destruct R as (c & L & ->). cbn. unfold get_reduction.
    destruct (c_spec c) as [|k [y|]|] eqn:SP; try reflexivity. exfalso. apply (N y). exists c, k. auto.
  Qed.
  Lemma label_goes_by n t : goes_by s n t -> forall fuel v,
    get_label cfg s delta_default fuel (Committed n) = Ok v -> v = Some t.
  Proof.
    induction 1 as [n t C|n m t N Re G IH]; intros fuel v E.
    - exact (label_of_committed s UL cfg LC lab CI BL fuel n t v C E).
    - destruct fuel as [|fuel]; [discriminate|]. cbn [get_label] in E. unfold get_concept_of_label in E.
      rewrite CI in E. cbn [obind] in E. apply obind_ok in E. destruct E as (l & E1 & E).
      apply obind_ok in E1. destruct E1 as (m' & R & [= <-]). rewrite (no_hand n m' N R) in E.
      rewrite R in E. cbn [obind] in E. rewrite (reduction_read n m' m Re R) in E. exact (IH _ _ E).
  Qed.
  Lemma label_nameless n : nameless s n -> forall fuel v,
    get_label cfg s delta_default fuel (Committed n) = Ok v -> v = None.
  Proof.
    induction 1 as [n N Re|n m N Re G IH]; intros fuel v E;
      (destruct fuel as [|fuel]; [discriminate|]); cbn [get_label] in E; unfold get_concept_of_label in E;
      rewrite CI in E; cbn [obind] in E; apply obind_ok in E; destruct E as (l & E1 & E);
      apply obind_ok in E1; destruct E1 as (m' & R & [= <-]); rewrite (no_hand n m' N R) in E;
      rewrite R in E; cbn [obind] in E.
    - rewrite (no_reduction_read n m' Re R) in E. injection E as <-. reflexivity.
    - rewrite (reduction_read n m' m Re R) in E. exact (IH _ _ E).
  Qed.
End Store.

(** ** The command *)
(** Reading the store never gives an error: it answers or panics. *)
Definition clean {A} (o : outcome A) : Prop := forall e, o <> Err e.
Lemma clean_bind {A B} (o : outcome A) (f : A -> outcome B) : clean o -> (forall a, clean (f a)) -> clean (obind o f).
Proof. intros H K e E. destruct o; cbn in E; try discriminate; [exact (K _ _ E)|exact (H e0 eq_refl)]. Qed.
Ltac cl1 :=
  match goal with
  | |- clean (Ok _) => intros ? ?; discriminate
  | |- clean (Panic _) => intros ? ?; discriminate
  | |- clean OutOfFuel => intros ? ?; discriminate
  | |- clean (obind _ _) => apply clean_bind; [|intros ?]
  | |- clean (dassert ?b ?x _) => unfold dassert; destruct b, x; cbn [negb andb]
  | |- clean (unwrap ?o _) => unfold unwrap; destruct o
  | |- clean (omap _ _) => unfold omap
  | |- clean (match ?x with _ => _ end) => destruct x
  end.
Ltac cl := repeat cl1.
Lemma clean_steps cfg id : forall l m, clean (read_steps cfg id m l).
Proof.
  induction l as [|d l IH]; intros m; cbn [read_steps]; cl; [|apply IH].
  unfold read_step, m_change_reduction, m_apply_indirect, change_reduction, apply_indirect, insert_into. cl.
Qed.
Lemma clean_read cfg snap d id : clean (read_concept cfg snap d id).
Proof. unfold read_concept, maybe_read_concept. cl. apply clean_steps. Qed.
Lemma clean_scan_deltas cfg id : forall l acc, clean (concrete_scan_deltas cfg id acc l).
Proof. induction l as [|x l IH]; intros acc; cbn [concrete_scan_deltas]; cl; try apply IH. Qed.
Lemma clean_scan cfg snap d cc : forall l acc, clean (concrete_scan cfg snap d cc acc l).
Proof.
  induction l as [|[id cds] l IH]; intros acc; cbn [concrete_scan]; cl; try apply IH; try apply clean_scan_deltas.
  unfold maybe_concrete_concept_type, maybe_read_concept. cl. apply clean_steps.
Qed.
Lemma clean_concrete_id cfg snap d cc : clean (concrete_concept_id cfg snap d cc).
Proof. unfold concrete_concept_id. cl. apply clean_scan. Qed.
Lemma clean_normal_form cfg snap d : forall n k, clean (get_normal_form cfg snap d n k).
Proof.
  induction n as [|n IH]; intros k; cbn [get_normal_form]; cl; [apply clean_read|apply IH].
Qed.
Lemma clean_label cfg snap d : forall n k, clean (get_label cfg snap d n k).
Proof.
  induction n as [|n IH]; intros k; cbn [get_label]; [cl|]. unfold get_concept_of_label.
  cl; first [apply clean_read|apply clean_concrete_id|apply clean_normal_form|apply IH].
Qed.
Lemma lift_clean {A} (f : ctx -> outcome A) c r c' : clift f c = Ok (r, c') -> clean (f c) ->
  c' = c /\ exists a, r = Val a /\ f c = Ok a.
Proof.
  unfold clift, clean. destruct (f c) as [a|e| |]; intros [= <- <-] P; [eauto|]. destruct (P e eq_refl).
Qed.

Section Call.
  Variable cfg : config.
  Variable fuel : nat.
  (** [l] is the built-in concept `label_of`. *)
  Definition asks_name (c : ctx) (l : tree) : Prop :=
    exists k, t_concept l = Some k /\ concrete_concept_type cfg (c_snap c) (c_delta c) k = Ok (Some CLabel).
  Lemma name_pair n l r c x c' : asks_name c l -> snd (calls cfg fuel n) l r c = Ok (x, c') ->
    c' = c /\ exists v, x = Val (quoted match v with Some w => w | None => display r end) /\
      match t_concept r with
      | Some k => get_label cfg (c_snap c) (c_delta c) fuel k = Ok v
      | None => v = None
      end.
  Proof.
    intros (k & K & T) E. destruct n as [|n]; [discriminate|]. cbn [calls snd] in E. unfold call_pair_step in E.
    apply bind_back in E. destruct E as (ty & c1 & E1 & E2). unfold c_concrete_type_of in E1. rewrite K in E1.
    unfold c_concrete_type, clift in E1. rewrite T in E1. injection E1 as <- <-.
    apply bind_back in E2. destruct E2 as (d & c2 & E2 & E3).
    apply bind_back in E2. destruct E2 as (v & c3 & E2 & E4).
    assert (V : exists w, v = Val w /\ c3 = c /\ match t_concept r with
      | Some k => get_label cfg (c_snap c) (c_delta c) fuel k = Ok w | None => w = None end).
    { destruct (t_concept r) as [j|]; [|injection E2 as <- <-; eauto].
      apply lift_clean in E2; [|apply clean_label]. destruct E2 as (-> & w & -> & E2). eauto. }
    destruct V as (w & -> & -> & V). injection E4 as <- <-. injection E3 as <- <-.
    split; [reflexivity|]. exists w. split; [reflexivity|exact V].
  Qed.
  Lemma name_call n t l r c x c' : not_a_string cfg c t -> t_exp t = Some (l, r) -> asks_name c l ->
    fst (calls cfg fuel n) t c = Ok (x, c') ->
    c' = c /\ exists v, x = Val (quoted match v with Some w => w | None => display r end) /\
      match t_concept r with
      | Some k => get_label cfg (c_snap c) (c_delta c) fuel k = Ok v
      | None => v = None
      end.
  Proof.
    intros S X A E. destruct n as [|n]; [discriminate|]. cbn [calls fst] in E.
    unfold call_step in E. apply bind_back in E. destruct E as (s & c1 & E1 & E2).
    assert (Z : c1 = c /\ s = Val None).
    { destruct (t_concept t) as [k|] eqn:K; [|injection E1 as <- <-; auto].
      apply bind_back in E1. destruct E1 as (m & c2 & E1 & E3). unfold c_read in E1.
      apply lift_clean in E1; [|apply clean_read]. destruct E1 as (-> & w & -> & E1).
      injection E3 as <- <-. rewrite (S k w K E1). auto. }
    destruct Z as [-> ->]. rewrite X in E2. unfold on_irreducible in E2 at 1. apply bind_back in E2.
    destruct E2 as (y & c2 & E2 & E3). apply catch_back in E2. destruct E2 as (z & -> & E2).
    destruct (name_pair _ _ _ _ _ _ A E2) as (-> & v & -> & V). injection E3 as <- <-. eauto.
  Qed.
End Call.

Section Command.
  Variables (b : bool) (cfg : config) (fuel : nat) (command : text) (c c1 c' : ctx) (t l r : tree) (answer : text).
  Hypothesis F : fair cfg.
  Hypothesis D : dbg cfg = b.
  Hypothesis RT : read_tree cfg fuel command c = Ok (Val t, c1).
  Hypothesis X : t_exp t = Some (l, r).
  Hypothesis S : not_a_string cfg c1 t.
  Hypothesis A : asks_name cfg c1 l.
  Hypothesis E : execute cfg fuel command c = Ok (answer, c').

  Lemma name_run : reachable b c -> exists v, run_command cfg fuel command c = Ok (Val answer, c1) /\
    answer = quoted match v with Some w => w | None => display r end /\
    match t_concept r with
    | Some k => get_label cfg (c_snap c) (c_delta c1) fuel k = Ok v
    | None => v = None
    end.
  Proof.
    intros R. destruct (execute_run cfg fuel command c answer c' F (reachable_ready b c R) E) as (z & c2 & H & W & An & _).
    pose proof H as H0. apply run_by_tree in H0. destruct H0 as (x & c3 & H0 & K). rewrite RT in H0. injection H0 as <- <-.
    destruct (name_call _ _ _ _ _ _ _ _ _ S X A K) as (-> & v & -> & V). exists v. rewrite W in V.
    split; [rewrite H, An; reflexivity|]. split; [exact An|exact V].
  Qed.
  Lemma name_changes_nothing : reachable b c -> same_meaning (c_snap c) (c_snap c').
  Proof.
    intros R. apply (naming_same_meaning cfg fuel command c answer c' F (reachable_ready b c R) E).
    intros z c2 H. destruct (name_run R) as (v & H' & _). rewrite H in H'. injection H' as -> ->.
    destruct (logs_read_tree _ _ _ _ _ _ RT) as (_ & l' & L & N). exists l'. auto.
  Qed.
  Lemma name_looked_up : reachable b c -> exists v,
    answer = quoted match v with Some w => w | None => display r end /\
    match t_concept r with
    | Some k => get_label cfg (c_snap c') delta_default fuel (Committed (place (c_snap c) k)) = Ok v
    | None => v = None
    end.
  Proof.
    intros R. destruct (name_run R) as (v & H & An & V). exists v. split; [exact An|].
    destruct (t_concept r) as [k|]; [|exact V].
    apply (C17_labels_survive_the_commit b cfg fuel command answer c c1 c' _ R F H E) in V.
    destruct k; exact V.
  Qed.
  Lemma name_reachable : reachable_with b (links_safe b) c -> reachable_with b (links_safe b) c'.
  Proof.
    intros R. pose proof (reachable_without _ _ _ R) as R0. destruct (name_run R0) as (v & H & _).
    eapply reach_with_execute; [exact F|exact D|exact R|exact H| |exact E].
    destruct (logs_read_tree _ _ _ _ _ _ RT) as (_ & l' & L & N). intros id x I.
    change (In (id, x) (pending c1)) in I. rewrite L in I.
    assert (P : pending c = []).
    { unfold pending. replace (c_delta c) with delta_default; [reflexivity|]. symmetry. apply (reachable_ready b c R0). }
    rewrite P in I. rewrite Forall_forall in N. apply N in I. cbn in I.
    destruct x as [|? []| |]; cbn in I |- *; try exact Logic.I; destruct I.
  Qed.
  Lemma name_answered k : reachable_with b (links_safe b) c -> t_concept r = Some k ->
    (forall w, goes_by (c_snap c') (place (c_snap c) k) w -> answer = quoted w) /\
    (nameless (c_snap c') (place (c_snap c) k) -> answer = quoted (display r)).
  Proof.
    intros R K. pose proof (name_reachable R) as R'. pose proof (reachable_without _ _ _ R') as R0'.
    destruct (links_agree_reachable b c' R') as (LC & LR & UC).
    destruct (reachable_built_in b c' R0' CLabel) as (lab & BL & _ & UL & _ & _ & CI).
    assert (UL' : forall x y, built_in (c_snap c') x CLabel -> built_in (c_snap c') y CLabel -> x = y).
    { intros y z Y Z. rewrite (UL y Y), (UL z Z). reflexivity. }
    rewrite (concrete_id_plain cfg0 _ _ fair0) in CI. rewrite <- (concrete_id_plain cfg _ _ F) in CI.
    destruct (name_looked_up (reachable_without _ _ _ R)) as (v & An & V). rewrite K in V. split.
    - intros w G. rewrite (label_goes_by _ cfg LC LR UL' lab CI BL _ _ G _ _ V) in An. exact An.
    - intros G. rewrite (label_nameless _ cfg LR lab CI BL _ G _ _ V) in An. exact An.
  Qed.
End Command.
