(** The life of the entries of a context's cache. *)
From Verif Require Import Snapshot Search Context Questions StoreSpec MapFacts AstFacts StoreFacts StoreInv
  RangeFacts History Sim SimRead Steps SearchCaches Repeat Earned CacheRun.
From Coq Require Import String List PeanoNat Lia.
Import ListNotations.
Local Open Scope zia_scope.

(** ** Specification *)
(** Everything in the cache of [c] was computed from what [c] knows: see [earned_reduction]. *)
Definition earned_context (cfg : config) (fuel : nat) (c : ctx) : Prop :=
  earned_cache cfg (c_snap c) fuel (c_delta c) (c_cache c).
(** Every reduction that is remembered in [c] is remembered in [c'], with the same result. *)
Definition remembered (c c' : ctx) : Prop :=
  forall k r, aget key_eqb k (k_red (c_cache c)) = Some r -> aget key_eqb k (k_red (c_cache c')) = Some r.
(** The recorded changes that are not yet committed. *)
Definition recorded (c : ctx) : list (cid * direct) := d_order (overlay (c_delta c)).

(** ** Proofs *)
Lemma empty_earned cfg fuel c : c_cache c = empty_cache -> earned_context cfg fuel c.
Proof. intros H. unfold earned_context. rewrite H. repeat split; intros ? ? []. Qed.

Section Earned.
  Variables (cfg : config) (fuel : nat) (snap : snapshot).
  Hypothesis N : self_numbered snap.
  Lemma earned_run_laws :
    run_laws cfg fuel (fun c => c_snap c = snap /\ earned_context cfg fuel c) (fun _ _ => True)
      (fun c => earned_state cfg (c_snap c) fuel (c_delta c)) (fun _ _ _ => True)
      (fun c => placed (c_delta c)) (fun c => placed_new (c_delta c)) (fun _ h => h <> 0).
  Proof.
    constructor; try (intros; exact I).
    - intros x c r c' [H _] E. unfold update in E. apply obind_ok in E. destruct E as ([id d'] & _ & [= <- <-]).
      split; [|exact I]. split; [exact H|]. apply empty_earned. reflexivity.
    - intros c [H _]. apply earned_laws. rewrite H. exact N.
    - intros c _. split; [constructor|]. split; intros _; eexists; reflexivity.
    - intros c [_ (H1 & H2 & H3)]. split; [|split; [|split; [exact H3|split; discriminate]]].
      + intros [|[|h]] k r X; cbn in X; try contradiction. apply H1, X.
      + intros [|[|h]] k r X; cbn in X; try contradiction. apply H2, X.
    - intros c s [H _] (H1 & H2 & H3 & H4 & H5) _. split; [|exact I]. split; [exact H|].
      split; [|split; [|exact H3]]; cbn [final_cache k_red k_syn c_cache].
      + intros x r X. apply (H1 0). destruct (s_red s); exact X.
      + intros x r X. apply (H2 0). destruct (s_syn s); exact X.
    - intros c v b p H. split; [exact H|exact I].
  Qed.
End Earned.
Lemma run_earned cfg fuel q c z c1 :
  self_numbered (c_snap c) -> earned_context cfg fuel c -> run_command cfg fuel q c = Ok (z, c1) ->
  c_snap c1 = c_snap c /\ earned_context cfg fuel c1.
Proof.
  intros N H E. destruct (ck_run _ _ _ _ _ _ _ _ _ (earned_run_laws cfg fuel (c_snap c) N) q c z c1
    (conj eq_refl H) E) as [X _]. exact X.
Qed.

Section Remembered.
  Variables (cfg : config) (fuel : nat).
  Definition later (c c' : ctx) : Prop :=
    c_snap c' = c_snap c /\ le (length (recorded c)) (length (recorded c')) /\
    (length (recorded c) = length (recorded c') -> c_delta c' = c_delta c /\ remembered c c').
  Lemma update_recorded x c r c' : update x c = Ok (r, c') -> length (recorded c') = S (length (recorded c)).
  Proof.
    intros E. unfold update in E. apply obind_ok in E. destruct E as ([id d'] & E & [= <- <-]).
    unfold recorded. cbn [c_delta]. destruct (c_delta c) as [o i]. cbn in E. oinv. subst.
    match goal with H : update_layer _ _ = _ |- _ => apply update_layer_spec in H;
      destruct H as (_ & _ & _ & HU & _) end. cbn [overlay]. rewrite HU, app_length. cbn. lia.
  Qed.
  Lemma lookup_own s k : s_red s <> [] -> lookup_red [0] k (s_red s) = aget key_eqb k (hd [] (s_red s)).
  Proof. destruct (s_red s); [congruence|]. intros _. cbn. destruct (aget _ _ _); reflexivity. Qed.
  Lemma remember_run_laws :
    run_laws cfg fuel (fun _ => True) later (fun c => caches_exist [0]) (fun c => remembers [0])
      (fun _ => extends_caches [0]) (fun _ => extends_caches [0]) (fun _ h => ~ In h [0]).
  Proof.
    constructor.
    - intros c _. split; [reflexivity|]. split; [lia|]. intros _. split; [reflexivity|]. intros k r X. exact X.
    - intros c1 c2 c3 (H0 & H1 & H2) (K0 & K1 & K2). split; [congruence|]. split; [lia|]. intros E. destruct H2 as [H2 H3]; [lia|].
      destruct K2 as [K2 K3]; [lia|]. split; [congruence|]. intros k r X. apply K3, H3, X.
    - intros x c r c' _ E. pose proof (update_recorded _ _ _ _ E) as X. split; [exact I|]. split; [|split; [lia|intros Y; lia]].
      unfold update in E. apply obind_ok in E. destruct E as ([id d'] & _ & [= _ <-]). reflexivity.
    - intros c _. apply remember_laws.
    - intros c _. exists []. split; [reflexivity|]. intros h [].
    - intros c _ h [<-|[]]. cbn. lia.
    - intros c s _ C H. split; [exact I|]. split; [reflexivity|]. split; [apply le_n|]. intros _. split; [reflexivity|].
      intros k r X. cbn [c_cache final_cache k_red]. specialize (H k r). rewrite !lookup_own in H.
      + apply H. exact X.
      + intros X'. assert (Y : lt 0 (length (s_red s))) by (apply C; now left). rewrite X' in Y. cbn in Y. lia.
      + discriminate.
    - intros c v b p _. split; [exact I|]. split; [reflexivity|]. split; [apply le_n|]. intros _. split; [reflexivity|].
      intros k r X. exact X.
  Qed.
End Remembered.
Lemma run_remembers cfg fuel q c z c1 :
  run_command cfg fuel q c = Ok (z, c1) ->
  c_snap c1 = c_snap c /\
  (length (recorded c1) = length (recorded c) -> c_delta c1 = c_delta c /\ remembered c c1).
Proof.
  intros E. destruct (ck_run _ _ _ _ _ _ _ _ _ (remember_run_laws cfg fuel) q c z c1 I E) as (_ & H & _ & X).
  split; [exact H|]. intros Y. apply X. now symmetry.
Qed.

(** A command that records nothing leaves what is known as it is. *)
Lemma apply_nothing dbg s s' : prev_unc s = [] -> apply dbg delta_default s = Ok s' -> s' = s.
Proof.
  intros P E. unfold apply in E. cbn in E. apply obind_ok in E. destruct E as (u & _ & E).
  injection E as <-. destruct s. cbn in *. congruence.
Qed.
Lemma execute_parts cfg fuel q c a c' :
  execute cfg fuel q c = Ok (a, c') ->
  exists z c1, run_command cfg fuel q c = Ok (z, c1) /\
    apply (dbg cfg) (c_delta c1) (c_snap c1) = Ok (c_snap c') /\ c_delta c' = delta_default /\
    c_cache c' = c_cache c1.
Proof.
  intros E. unfold execute in E. apply obind_ok in E. destruct E as ([x c1] & E & E').
  destruct x as [x|]; [|discriminate]. injection E' as <- <-.
  unfold execute_without_closing_scope in E.
  apply bind_back in E. destruct E as (y & c2 & E1 & E2).
  unfold catch in E1. apply obind_ok in E1. destruct E1 as ([z c3] & E1 & E3).
  injection E3 as <- <-.
  apply bind_back in E2. destruct E2 as (u & c4 & E2 & E3).
  unfold commit in E2. destruct (pinned c3) eqn:Pn.
  { injection E2 as <- <-. destruct E3 as [? _]. discriminate. }
  apply obind_ok in E2. destruct E2 as (s' & A & E2). injection E2 as <- <-.
  injection E3 as <- <-. cbn. exists z, c3. auto.
Qed.
Lemma execute_quiet cfg fuel q c a c' z c1 :
  ready c -> execute cfg fuel q c = Ok (a, c') -> run_command cfg fuel q c = Ok (z, c1) ->
  recorded c1 = [] ->
  c_snap c' = c_snap c /\ c_delta c' = c_delta c /\ c_cache c' = c_cache c1 /\ c_delta c1 = c_delta c.
Proof.
  intros R E E1 Z. destruct (execute_parts _ _ _ _ _ _ E) as (z' & c2 & E2 & A & D & K).
  rewrite E1 in E2. injection E2 as <- <-.
  destruct (run_remembers _ _ _ _ _ _ E1) as [W Y].
  destruct Y as [Y Y']; [unfold recorded in *; rewrite Z, (ready_delta _ R); reflexivity|].
  rewrite Y, W, (ready_delta _ R) in A. apply (apply_nothing _ _ _ (ready_prev _ R)) in A.
  rewrite D, (ready_delta _ R) in *. auto.
Qed.
(** Entries of the cache after a command that records nothing, or that empties the cache last. *)
Lemma execute_earned cfg fuel q c a c' z c1 :
  ready c -> earned_context cfg fuel c -> execute cfg fuel q c = Ok (a, c') ->
  run_command cfg fuel q c = Ok (z, c1) ->
  earned_context cfg fuel c1 /\ (recorded c1 = [] \/ c_cache c1 = empty_cache -> earned_context cfg fuel c').
Proof.
  intros R H E E1. destruct (run_earned _ _ _ _ _ _ (sane_numbers _ (ready_sane _ R)) H E1) as [S1 H1].
  split; [exact H1|]. intros [Z|Z].
  - destruct (execute_quiet _ _ _ _ _ _ _ _ R E E1 Z) as (A1 & A2 & A3 & A4).
    unfold earned_context in *. rewrite A1, A2, A3, <- A4, <- S1. exact H1.
  - apply empty_earned. destruct (execute_parts _ _ _ _ _ _ E) as (z' & c2 & E2 & _ & _ & K).
    rewrite E1 in E2. injection E2 as <- <-. congruence.
Qed.
Lemma execute_remembers cfg fuel q c a c' z c1 :
  ready c -> execute cfg fuel q c = Ok (a, c') -> run_command cfg fuel q c = Ok (z, c1) ->
  recorded c1 = [] -> remembered c c'.
Proof.
  intros R E E1 Z. destruct (execute_quiet _ _ _ _ _ _ _ _ R E E1 Z) as (_ & _ & A3 & _).
  destruct (run_remembers _ _ _ _ _ _ E1) as [_ Y].
  destruct Y as [_ Y]; [unfold recorded in *; rewrite Z, (ready_delta _ R); reflexivity|].
  intros k r X. rewrite A3. apply Y, X.
Qed.
