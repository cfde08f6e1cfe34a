(** Invariants of the store proved change by change, with the knowledge of what the command
    had read when it recorded the change. *)
From Verif Require Import Snapshot Context StoreSpec MapFacts AstFacts StoreFacts StoreInv RangeFacts
  History Sim SimRead.
From Coq Require Import List String.
Import ListNotations.
Local Open Scope zia_scope.

Section Steps.
  Variable cfg : config.
  Variable snap : snapshot.
  Variable fuel : nat.
  Local Notation n0 := (size snap).

  Lemma read_stays k cds : forall m mo,
    read_steps cfg k (Some m) cds = Ok mo -> (forall i, ~ In (Direct (DRemove i)) cds) ->
    exists m', mo = Some m'.
  Proof.
    induction cds as [|cd cds IH]; intros m mo R H.
    - injection R as <-. eauto.
    - cbn [read_steps] in R. apply obind_ok in R. destruct R as (m1 & R1 & R2).
      assert (X : exists m2, m1 = Some m2).
      { destruct cd as [[nd|cc ch|u ch|i]|i]; cbn in R1; oinv; subst; eauto.
        destruct (H i). left. reflexivity. }
      destruct X as (m2 & ->). apply (IH m2 mo R2). intros i I. apply (H i). right. exact I.
  Qed.

  Lemma linked_read h d s k m :
    linked cfg snap h d s -> read_concept cfg snap d k = Ok m ->
    dom snap (d_num (overlay d)) k /\
    exists c, lookup s (rho snap k) = Some c /\ sim snap h (d_num (overlay d)) m (stripc h c).
  Proof.
    intros LK R. pose proof LK as [K1 K2 K3 K4 K5 K6 K7].
    unfold read_concept, maybe_read_concept, delta_concept in R. rewrite K1 in R. cbn in R.
    assert (X : read_steps cfg k (get_concept snap k) (entries (overlay d) k) = Ok (Some m)).
    { specialize (K6 k). unfold entries in *.
      destruct (aget cid_eqb k (d_concept (overlay d))) as [cds|].
      - apply obind_ok in R. destruct R as (mo & R1 & R2). destruct mo as [m'|]; [congruence|].
        apply unwrap_ok in R2. rewrite R2 in R1.
        destruct (read_stays k cds m None R1 K6) as (? & C). discriminate C.
      - cbn in R. apply unwrap_ok in R. cbn. rewrite R. reflexivity. }
    assert (D : dom snap (d_num (overlay d)) k).
    { destruct (entries (overlay d) k) eqn:E.
      - cbn in X. injection X as X. destruct k as [n|u]; cbn in *; [|discriminate].
        destruct (nth_error (concepts snap) n) eqn:N; [|discriminate].
        apply nth_error_Some. congruence.
      - apply K5. rewrite E. discriminate. }
    split; [exact D|]. apply K7; assumption.
  Qed.

  Lemma update_order x d1 id d2 :
    layers d1 = [overlay d1] -> delta_update x d1 = Ok (id, d2) ->
    d_order (overlay d2) = d_order (overlay d1) ++ [(id, x)] /\ layers d2 = [overlay d2].
  Proof.
    intros L U. destruct d1 as [l i]. cbn in *. injection L as ->. oinv. subst.
    match goal with H : update_layer _ _ = _ |- _ => apply update_layer_spec in H;
      destruct H as (_ & _ & _ & H & _) end. auto.
  Qed.

  Definition orderly (h : bool) (d : delta) : Prop :=
    h = true -> forall id x, In (id, x) (d_order (overlay d)) -> keeps_hands x.

  (** What a step may assume. *)
  Definition step_keeps (h : bool) (Inv : delta -> snapshot -> Prop) : Prop :=
    forall d1 s1 x id d2 s2,
      linked cfg snap h d1 s1 -> apply_directs (dbg cfg) (d_order (overlay d1)) snap = Ok s1 ->
      steps cfg (below n0) snap fuel delta_default d1 ->
      legit cfg snap fuel d1 x -> good_direct (below n0) x -> (h = true -> keeps_hands x) ->
      delta_update x d1 = Ok (id, d2) -> apply_direct (dbg cfg) id x s1 = Ok s2 ->
      linked cfg snap h d2 s2 -> Inv d1 s1 -> Inv d2 s2.

  Lemma steps_keep h Inv d s :
    sane snap -> prev_unc snap = [] ->
    steps cfg (below n0) snap fuel delta_default d ->
    apply_directs (dbg cfg) (d_order (overlay d)) snap = Ok s -> orderly h d ->
    step_keeps h Inv -> Inv delta_default snap ->
    linked cfg snap h d s /\ Inv d s.
  Proof.
    intros S P ST. remember delta_default as d0 eqn:E0. revert s.
    induction ST as [d|d d1 x id d2 ST IH L G U]; intros s A O K B; subst.
    - injection A as <-. split; [apply linked_base; assumption|exact B].
    - pose proof (steps_single _ _ _ _ _ _ ST eq_refl) as Ld.
      destruct (update_order _ _ _ _ Ld U) as [EO _].
      rewrite EO, apply_directs_app in A. apply obind_ok in A. destruct A as (s1 & A1 & A2).
      cbn in A2. apply obind_ok in A2. destruct A2 as (s2 & A2 & A3). injection A3 as <-.
      assert (O1 : orderly h d1).
      { intros Hh j y I. apply (O Hh j y). rewrite EO, in_app_iff. auto. }
      assert (Ox : h = true -> keeps_hands x).
      { intros Hh. apply (O Hh id x). rewrite EO, in_app_iff. right. left. reflexivity. }
      destruct (IH eq_refl s1 A1 O1 K B) as [L1 I1].
      assert (L2 : linked cfg snap h d2 s2) by (exact (linked_step cfg snap h d1 s1 x id d2 s2 L1 G Ox U A2)).
      split; [exact L2|]. exact (K d1 s1 x id d2 s2 L1 A1 ST L G Ox U A2 L2 I1).
  Qed.
End Steps.

(** A successful command: the context just before the commit, and the commit. *)
Lemma execute_run cfg fuel t c r c' :
  fair cfg -> ready c -> execute cfg fuel t c = Ok (r, c') ->
  exists z c1, run_command cfg fuel t c = Ok (z, c1) /\ c_snap c1 = c_snap c /\
    r = match z with Val s => s | Fail e => error_text e end /\
    steps cfg (below (size (c_snap c))) (c_snap c) fuel delta_default (c_delta c1) /\
    good_delta (below (size (c_snap c))) (c_delta c1) /\
    layers (c_delta c1) = [overlay (c_delta c1)] /\
    apply (dbg cfg) (c_delta c1) (c_snap c) = Ok (c_snap c') /\
    c_delta c' = delta_default /\ c_cache c' = c_cache c1.
Proof.
  intros F R E. unfold execute in E. apply obind_ok in E. destruct E as ([x c1] & E & E').
  destruct x as [x|]; [|discriminate]. injection E' as <- <-.
  unfold execute_without_closing_scope in E.
  apply bind_back in E. destruct E as (y & c2 & E1 & E2).
  unfold catch in E1. apply obind_ok in E1. destruct E1 as ([z c3] & E1 & E3).
  injection E3 as <- <-.
  apply bind_back in E2. destruct E2 as (u & c4 & E2 & E3).
  unfold commit in E2. destruct (pinned c3) eqn:Pn.
  { injection E2 as <- <-. destruct E3 as [? _]. discriminate. }
  apply obind_ok in E2. destruct E2 as (s' & A & E2). injection E2 as <- <-.
  injection E3 as <- <-. cbn.
  destruct R as [R1 R2 R3 R4 R5 R6].
  assert (C : cgood (below (size (c_snap c))) (c_snap c) c).
  { split; [reflexivity|]. rewrite R3, R5. split; [apply good_delta_default|].
    split; [exact R4|]. intros ? []. }
  pose proof (cok_run cfg F (below (size (c_snap c))) (fun u => I) (c_snap c)
                (sane_ids _ R1) fuel t c z c3 C E1) as (G & S & _).
  destruct G as (G1 & G2 & G3 & G4). rewrite R3 in S. rewrite G1 in A.
  assert (L : layers (c_delta c3) = [overlay (c_delta c3)]).
  { eapply steps_single; [exact S|reflexivity]. }
  exists z, c3. repeat (split; [assumption || reflexivity|]). reflexivity.
Qed.

Lemma apply_split dbg d s s' :
  sane s -> layers d = [overlay d] -> good_delta (below (size s)) d -> apply dbg d s = Ok s' ->
  exists s1, apply_directs dbg (d_order (overlay d)) s = Ok s1 /\
    concepts s' = concepts s1 /\ concrete_concepts s' = concrete_concepts s1 /\ prev_unc s' = [].
Proof.
  intros S L G E. unfold apply in E. oinv. subst. rewrite (single_order d L) in *.
  match goal with H : apply_directs _ _ _ = Ok ?s1 |- _ => exists s1; split; [exact H|]; rename H into A end.
  match goal with H : apply_strings _ _ _ = Ok _ |- _ => rename H into B end.
  cbn. clear - B. 
  match type of B with apply_strings _ ?ss ?x = Ok ?y => revert x B; induction ss as [|[t ch] ss IH]; intros x B end.
  - injection B as <-. auto.
  - cbn in B. apply obind_ok in B. destruct B as (w1 & B1 & B2).
    apply apply_string_frame in B1. destruct B1 as (C1 & C2 & _).
    destruct (IH w1 B2) as (D1 & D2 & D3). split; [congruence|]. split; [congruence|exact D3].
Qed.

(** An invariant of the store kept by every change a command can record holds of every
    reachable context. *)
Lemma reachable_steps b (Inv : snapshot -> Prop) c :
  (forall cfg fuel snap, fair cfg -> dbg cfg = b -> sane snap -> prev_unc snap = [] -> Inv snap ->
     step_keeps cfg snap fuel false (fun _ s => Inv s)) ->
  (forall s s', concepts s' = concepts s -> concrete_concepts s' = concrete_concepts s ->
                Inv s -> Inv s') ->
  Inv (c_snap base_context) -> reachable b c -> Inv (c_snap c).
Proof.
  intros K KS B R. induction R as [|cfg fuel t c r c' F D R IH E]; [exact B|].
  pose proof (reachable_ready _ _ R) as RD.
  destruct (execute_run cfg fuel t c r c' F RD E) as (z & c1 & E1 & E2 & _ & ST & G & L & A & _).
  destruct (apply_split _ _ _ _ (ready_sane c RD) L G A) as (s1 & A1 & C1 & C2 & _).
  apply (KS s1); auto.
  apply (steps_keep cfg (c_snap c) fuel false (fun _ s => Inv s) (c_delta c1) s1
           (ready_sane c RD) (ready_prev c RD) ST A1).
  - discriminate.
  - apply K; auto; apply RD.
  - exact IH.
Qed.

(** A relation between the stores before and after a command. *)
Lemma execute_steps cfg fuel (Rel : snapshot -> snapshot -> Prop) t c r c' :
  fair cfg -> ready c -> (forall s, Rel s s) ->
  step_keeps cfg (c_snap c) fuel false (fun _ s => Rel (c_snap c) s) ->
  (forall s s1 s2, concepts s2 = concepts s1 -> concrete_concepts s2 = concrete_concepts s1 ->
     Rel s s1 -> Rel s s2) ->
  execute cfg fuel t c = Ok (r, c') -> Rel (c_snap c) (c_snap c').
Proof.
  intros F RD RF K KS E.
  destruct (execute_run cfg fuel t c r c' F RD E) as (z & c1 & E1 & E2 & _ & ST & G & L & A & _).
  destruct (apply_split _ _ _ _ (ready_sane c RD) L G A) as (s1 & A1 & C1 & C2 & _).
  apply (KS _ s1); auto.
  apply (steps_keep cfg (c_snap c) fuel false (fun _ s => Rel (c_snap c) s) (c_delta c1) s1
           (ready_sane c RD) (ready_prev c RD) ST A1); auto.
  discriminate.
Qed.
