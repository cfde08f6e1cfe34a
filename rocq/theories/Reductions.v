(** Declaring and forgetting reductions. *)
From Verif Require Import Snapshot Search Context StoreSpec NameSpec FrameSpec MapFacts AstFacts StoreFacts StoreInv
  RangeFacts History Sim SimRead Steps Keep Quiet SearchPlain Frames.
From Coq Require Import String List Relations PeanoNat Lia Bool.
Import ListNotations.
Local Open Scope zia_scope.

Lemma tame_search {A} (f : ctx -> env -> SM A) :
  (forall c e, splain (f c e)) -> tame (fun c => with_search (f c) c).
Proof.
  intros H c r c' E. unfold with_search in E.
  pose proof (H c (new_env (c_delta c) (c_bound c)) (start_state (c_cache c) (c_tick c))) as P.
  destruct (f c _ _) as [[a s]|e| |]; try discriminate; injection E as <- <-; cbn;
    auto using store_error_tame.
Qed.

(** Every change recorded while finding or making the concept of an expression: new names
    and new compositions. *)
Definition building (d : direct) : Prop :=
  naming d \/ exists l r, d = DNew (NComposition l r).
(** Every pair of the expression that has no concept yet is displayed with a space. *)
Fixpoint spaced (t : tree) : Prop :=
  match t with
  | TLeaf _ _ _ => True
  | TBranch _ c l r _ _ => c <> None \/ (smem N.eqb c_space (display t) = true /\ spaced l /\ spaced r)
  end.

Section Reduction.
  Variable cfg : config.
  Variable fuel : nat.

  Lemma logs_weaken {A} (P Q : direct -> Prop) (m : CM A) : (forall d, P d -> Q d) -> logs P m -> logs Q m.
  Proof.
    intros I H c r c' E. destruct (H c r c' E) as (E1 & l & E2 & F). split; [exact E1|]. exists l.
    split; [exact E2|]. eapply Forall_impl; [|exact F]. intros [id d]. apply I.
  Qed.
  Lemma logs_concept t : spaced t -> logs building (concept_from_ast cfg fuel t).
  Proof.
    induction t as [s c k|s c l IHl r IHr fv bv]; intros SP; cbn [concept_from_ast t_concept].
    - destruct c as [c|]; [apply logs_still, still_ret|].
      apply logs_bind; [apply logs_still, still_lift|]. intros [x|]; [apply logs_still, still_ret|].
      apply logs_bind; [apply logs_still, still_lift|]. intros [x|]; [|apply logs_still, still_fail].
      apply (logs_weaken naming); [left; assumption|apply logs_new_labelled].
    - destruct c as [c|]; [apply logs_still, still_ret|].
      destruct SP as [SP|(SP & Sl & Sr)]; [contradiction|].
      apply logs_bind; [apply logs_still, still_lift|]. intros [x|]; [apply logs_still, still_ret|].
      apply logs_bind; [apply IHl, Sl|]. intros lc. apply logs_bind; [apply IHr, Sr|]. intros rc.
      apply logs_bind.
      + unfold find_or_insert_composition. apply logs_bind; [apply logs_still, still_lift|]. intros m.
        destruct (m_find_as_hand m rc HLeft); [apply logs_still, still_ret|].
        apply logs_update. right. eauto.
      + intros x. apply logs_bind; [|intros _; apply logs_still, still_ret].
        rewrite SP. apply logs_still, still_ret.
  Qed.
  Lemma tame_need : tame need_delta.
  Proof.
    intros c r c' E. unfold need_delta in E. destruct (pinned c) eqn:P; injection E as <- <-; (split; [auto|]).
    - split; discriminate.
    - exact I.
  Qed.
  Lemma tame_execute_reduction t nf : tame (execute_reduction cfg fuel t nf).
  Proof.
    unfold execute_reduction.
    destruct (t_contains nf t); [apply tame_fail; split; discriminate|].
    destruct (key_eqb (t_key t) (t_key nf)).
    { unfold try_removing_reduction. apply tame_bind; [apply tame_need|]. intros _.
      destruct (t_concept t); [apply tame_delete|apply tame_fail; split; discriminate]. }
    pose proof (fun c => search_plain cfg (c_snap c) fuel fuel) as O.
    assert (R : tame (c_reduce cfg fuel t)).
    { apply (tame_search (fun c e => o_reduce (ops_of cfg fuel c) e t)). intros c e. apply op_reduce, O. }
    assert (I : tame (c_inferred cfg fuel t)).
    { apply (tame_search (fun c e => find_examples_of_inferred_reduction cfg (c_snap c) fuel (ops_of cfg fuel c) e t)).
      intros c e. apply inferred_plain, O. }
    apply tame_bind; [exact R|]. intros x. apply tame_bind; [destruct x; [apply tame_ret|exact I]|].
    intros [[y z]|]; [apply tame_fail; split; discriminate|].
    apply tame_bind; [apply tame_need|]. intros _.
    apply tame_bind; [apply tame_concept_from_ast|]. intros c.
    apply tame_bind; [apply tame_concept_from_ast|]. intros r. apply tame_update_reduction.
  Qed.

  (** What a declaration records. *)
  Definition declares (t nf : tree) (c c' : ctx) : Prop :=
    exists l x y ch, pending c' = pending c ++ l ++ [(x, DReduce x ch)] /\
      Forall (fun p => building (snd p)) l /\ Delta.after ch = Some y /\
      (forall i, t_concept t = Some i -> x = i) /\ (forall i, t_concept nf = Some i -> y = i).
  Definition builds (c c' : ctx) : Prop :=
    exists l, pending c' = pending c ++ l /\ Forall (fun p => building (snd p)) l.
  Lemma builds_same c c' : c_delta c' = c_delta c -> builds c c'.
  Proof. intros E. exists []. unfold pending. rewrite E, app_nil_r. auto. Qed.
  Lemma execute_reduction_changes t nf c r c' :
    spaced t -> spaced nf -> t_key t <> t_key nf ->
    execute_reduction cfg fuel t nf c = Ok (r, c') ->
    match r with Val _ => declares t nf c c' | Fail _ => builds c c' end.
  Proof.
    intros S1 S2 K E. unfold execute_reduction in E.
    destruct (t_contains nf t); [injection E as <- <-; apply builds_same; reflexivity|].
    destruct (key_eqb_spec (t_key t) (t_key nf)) as [?|_]; [contradiction|].
    apply bind_back in E. destruct E as (ex & c1 & E1 & E).
    apply still_reduce in E1. destruct E1 as [_ D1].
    destruct ex as [ex|]; [|destruct E as [-> ->]; apply builds_same, D1].
    apply bind_back in E. destruct E as (ex2 & c2 & E2 & E).
    assert (D2 : c_delta c2 = c_delta c).
    { rewrite <- D1. destruct ex as [w|]; [apply (still_ret (Some w)) in E2; apply E2|apply still_inferred in E2; apply E2]. }
    destruct ex2 as [ex2|]; [|destruct E as [-> ->]; apply builds_same, D2].
    destruct ex2 as [[y0 z0]|]; [injection E as <- <-; apply builds_same, D2|].
    apply bind_back in E. destruct E as (u & c3 & E3 & E). apply still_need in E3. destruct E3 as [_ D3].
    rewrite D2 in D3.
    destruct u as [u|]; [|destruct E as [-> ->]; apply builds_same, D3].
    apply bind_back in E. destruct E as (x & c4 & E4 & E).
    assert (X : forall i, t_concept t = Some i -> x = Val i).
    { intros i T. destruct t; cbn in T, E4; subst; cbn in E4; injection E4 as <- _; reflexivity. }
    apply (logs_concept t S1) in E4. destruct E4 as (_ & l4 & P4 & F4).
    unfold pending in P4. rewrite D3 in P4. change (pending c4 = pending c ++ l4) in P4.
    destruct x as [x|]; [|destruct E as [-> ->]; exists l4; auto].
    apply bind_back in E. destruct E as (y & c5 & E5 & E).
    assert (Y : forall i, t_concept nf = Some i -> y = Val i).
    { intros i T. destruct nf; cbn in T, E5; subst; cbn in E5; injection E5 as <- _; reflexivity. }
    apply (logs_concept nf S2) in E5. destruct E5 as (_ & l5 & P5 & F5).
    assert (F : Forall (fun p => building (snd p)) (l4 ++ l5)) by (apply Forall_app; auto).
    assert (P : pending c5 = pending c ++ l4 ++ l5) by (rewrite P5, P4, app_assoc; reflexivity). clear P4 P5.
    destruct y as [y|]; [|destruct E as [-> ->]; exists (l4 ++ l5); auto].
    assert (B : forall d, c_delta d = c_delta c5 -> builds c d).
    { intros d D. exists (l4 ++ l5). unfold pending in *. rewrite D. auto. }
    unfold update_reduction in E.
    apply bind_back in E. destruct E as (n & c6 & E6 & E). apply still_lift in E6. destruct E6 as [_ D6].
    destruct n as [n|]; [|destruct E as [-> ->]; apply B, D6].
    destruct (option_eqb cid_eqb n (Some x)); [injection E as <- <-; apply B, D6|].
    apply bind_back in E. destruct E as (m & c7 & E7 & E). apply still_read in E7. destruct E7 as [_ D7].
    rewrite D6 in D7.
    destruct m as [m|]; [|destruct E as [-> ->]; apply B, D7].
    destruct (option_eqb cid_eqb (m_reduction m) (Some y)); [injection E as <- <-; apply B, D7|].
    apply bind_back in E. destruct E as (rc & c8 & E8 & E). apply still_lift in E8. destruct E8 as [_ D8].
    rewrite D7 in D8.
    destruct rc as [rc|]; [|destruct E as [-> ->]; apply B, D8].
    destruct (cid_eqb y rc); [injection E as <- <-; apply B, D8|].
    apply bind_back in E. destruct E as (w & c9 & E9 & E). apply update_pending in E9.
    destruct E9 as (id & -> & _ & P9 & _ & ID). subst id. injection E as <- <-.
    exists (l4 ++ l5), x, y. eexists. split.
    - rewrite P9. unfold pending in *. rewrite D8, P, <- !app_assoc. reflexivity.
    - split; [exact F|]. split; [destruct n; reflexivity|].
      split; intros i T; [specialize (X i T)|specialize (Y i T)]; congruence.
  Qed.
  Lemma removing_changes t c r c' :
    try_removing_reduction cfg t c = Ok (r, c') ->
    match r with
    | Val _ => exists x y m, pending c' = pending c ++ [(x, DReduce x (Remove y))] /\ t_concept t = Some x /\
        read_concept cfg (c_snap c) (c_delta c) x = Ok m /\ m_reduction m = Some y
    | Fail _ => c_delta c' = c_delta c
    end.
  Proof.
    intros E. unfold try_removing_reduction in E.
    apply bind_back in E. destruct E as (u & c3 & E3 & E).
    unfold need_delta in E3. destruct (pinned c); injection E3 as <- <-; [destruct E as [-> ->]; reflexivity|].
    destruct (t_concept t) as [x|]; [|injection E as <- <-; reflexivity].
    unfold delete_reduction in E. apply bind_back in E. destruct E as (m & c7 & E7 & E).
    unfold c_read in E7. apply lift_back in E7. destruct E7 as [-> E7].
    destruct m as [m|]; [|destruct E as [-> ->]; reflexivity].
    destruct (m_reduction m) as [y|] eqn:MR; [|injection E as <- <-; reflexivity].
    apply bind_back in E. destruct E as (w & c9 & E9 & E). apply update_pending in E9.
    destruct E9 as (id & -> & _ & P9 & _ & ID). subst id. injection E as <- <-.
    exists x, y, m. auto.
  Qed.
End Reduction.

Section Calls.
  Variable cfg : config.
  Variable fuel : nat.

  Lemma irreducible_back {A} (m alt : CM A) c r c' :
    on_irreducible m alt c = Ok (r, c') ->
    (exists x, m c = Ok (x, c') /\ x <> Fail CannotReduceFurther /\ r = x) \/
    (exists c1, m c = Ok (Fail CannotReduceFurther, c1) /\ alt c1 = Ok (r, c')).
  Proof.
    intros E. unfold on_irreducible in E. apply bind_back in E. destruct E as (x & c1 & E1 & E2).
    apply catch_back in E1. destruct E1 as (y & -> & E1).
    destruct y as [y|e].
    - left. exists (Val y). injection E2 as <- <-. repeat split; [exact E1|discriminate].
    - destruct e; try (left; eexists; injection E2 as <- <-; repeat split; [exact E1|discriminate]).
      right. eauto.
  Qed.
  Lemma type_back id c r c' :
    c_concrete_type cfg id c = Ok (r, c') ->
    c' = c /\ match r with Val x => concrete_concept_type cfg (c_snap c) (c_delta c) id = Ok x
                         | Fail e => tame_error e end.
  Proof.
    intros E. unfold c_concrete_type, clift in E.
    pose proof (plain_type cfg (c_snap c) (c_delta c) id) as P.
    destruct (concrete_concept_type cfg (c_snap c) (c_delta c) id); try discriminate; injection E as <- <-; auto using store_error_tame.
  Qed.
  Definition only_type (c : ctx) (id : cid) (cc : cct) : Prop :=
    forall x, concrete_concept_type cfg (c_snap c) (c_delta c) id = Ok x -> x = Some cc.
  Lemma type_of_back t id cc c r c' :
    t_concept t = Some id -> only_type c id cc -> c_concrete_type_of cfg t c = Ok (r, c') ->
    c' = c /\ (r = Val (Some cc) \/ exists e, r = Fail e /\ tame_error e).
  Proof.
    intros T H E. unfold c_concrete_type_of in E. rewrite T in E. apply type_back in E. destruct E as [-> E].
    split; [reflexivity|]. destruct r as [x|e]; [left; f_equal; exact (H x E)|right; eauto].
  Qed.
  Lemma call_by_pair t tl tr c r c' :
    t_concept t = None -> t_exp t = Some (tl, tr) -> call cfg fuel t c = Ok (r, c') ->
    exists n x c1, snd (calls cfg fuel n) tl tr c = Ok (x, c1) /\
      (x <> Fail CannotReduceFurther -> r = x /\ c' = c1).
  Proof.
    intros T1 T2 E. unfold call in E. revert E. generalize fuel at 2. intros [|m] E; [discriminate|].
    cbn [calls fst] in E. unfold call_step in E. rewrite T1, T2 in E.
    apply bind_back in E. destruct E as (x & c1 & E1 & E). injection E1 as <- <-.
    apply irreducible_back in E. destruct E as [(x & E & N & ->)|(c1 & E & _)].
    - exists m, x, c'. auto.
    - exists m, (Fail CannotReduceFurther), c1. split; [exact E|]. intros N. destruct N. reflexivity.
  Qed.

  Lemma call_declares t tl ta a p ar b nl na c r c' :
    t_concept t = None -> t_exp t = Some (tl, ta) -> t_exp ta = Some (a, p) -> t_exp p = Some (ar, b) ->
    t_concept tl = Some nl -> t_concept ar = Some na -> only_type c nl CLet -> only_type c na CReduction ->
    call cfg fuel t c = Ok (r, c') ->
    (exists e, r = Fail e /\ (c_delta c' = c_delta c \/ execute_reduction cfg fuel a b c = Ok (Fail e, c'))) \/
    (execute_reduction cfg fuel a b c = Ok (Val tt, c') /\ r = Val []).
  Proof.
    intros T1 T2 T3 T4 T5 T6 H1 H2 E.
    destruct (call_by_pair t tl ta c r c' T1 T2 E) as (n & x & c1 & P & K). clear E.
    assert (X : x <> Fail CannotReduceFurther /\
      ((exists e, x = Fail e /\ (c_delta c1 = c_delta c \/ execute_reduction cfg fuel a b c = Ok (Fail e, c1))) \/
       (execute_reduction cfg fuel a b c = Ok (Val tt, c1) /\ x = Val []))).
    { clear K r c'. destruct n as [|n]; [discriminate|]. cbn [calls snd] in P. unfold call_pair_step in P.
      apply bind_back in P. destruct P as (ty & c2 & E1 & P).
      apply (type_of_back tl nl CLet) in E1; [|exact T5|exact H1].
      destruct E1 as [-> [->|(e & -> & TE)]].
      2:{ destruct P as [-> ->]. split; [destruct TE; congruence|left; eauto 6]. }
      apply bind_back in P. destruct P as (dn & c2 & E2 & P).
      apply bind_back in E2. destruct E2 as (y & c3 & E2 & E3).
      unfold call_let in E2. rewrite T3, T4 in E2.
      apply bind_back in E2. destruct E2 as (at_ & c4 & E2 & E4).
      apply bind_back in E2. destruct E2 as (z & c5 & E2 & E5).
      apply catch_back in E2. destruct E2 as (w & -> & E2). injection E5 as <- <-.
      assert (W : (exists e, w = Fail e /\ tame_error e /\
          (c_delta c5 = c_delta c \/ execute_reduction cfg fuel a b c = Ok (Fail e, c5))) \/
        (execute_reduction cfg fuel a b c = Ok (Val tt, c5) /\ w = Val tt)).
      { revert E2. generalize fuel at 2. intros [|k] E2; [discriminate|]. cbn [match_righthand_pair] in E2. rewrite T6 in E2.
        apply bind_back in E2. destruct E2 as (ty & c6 & E6 & E2). apply type_back in E6. destruct E6 as [-> E6].
        destruct ty as [ty|e]; [|destruct E2 as [-> ->]; left; eauto].
        apply H2 in E6. subst ty.
        destruct w as [[]|e]; [right; auto|]. left. exists e. split; [reflexivity|]. split; [|auto].
        apply tame_execute_reduction in E2. apply E2. }
      destruct W as [(e & -> & TE & W)|(W & ->)].
      - assert (R : x = Fail e /\ c1 = c5).
        { destruct e; try (exfalso; destruct TE; congruence);
            injection E4 as <- <-; injection E3 as <- <-; injection P as <- <-; auto. }
        destruct R as [-> ->]. split; [destruct TE; congruence|left; eauto].
      - injection E4 as <- <-. injection E3 as <- <-. injection P as <- <-.
        split; [discriminate|]. right. auto. }
    destruct X as [X1 X2]. destruct (K X1) as [-> ->]. exact X2.
  Qed.
  Lemma call_forgets t tf tx nf x c r c' :
    t_concept t = None -> t_exp t = Some (tf, tx) -> t_concept tf = Some nf -> only_type c nf CForget ->
    t_concept tx = Some x ->
    call cfg fuel t c = Ok (r, c') ->
    (exists e, r = Fail e /\ c_delta c' = c_delta c) \/ (try_removing_reduction cfg tx c = Ok (Val tt, c') /\ r = Val []).
  Proof.
    intros T1 T2 T3 H1 T4 E.
    destruct (call_by_pair t tf tx c r c' T1 T2 E) as (n & y & c1 & P & K). clear E.
    assert (X : y <> Fail CannotReduceFurther /\
      ((exists e, y = Fail e /\ c_delta c1 = c_delta c) \/ (try_removing_reduction cfg tx c = Ok (Val tt, c1) /\ y = Val []))).
    { clear K r c'. destruct n as [|n]; [discriminate|]. cbn [calls snd] in P. unfold call_pair_step in P.
      apply bind_back in P. destruct P as (ty & c2 & E1 & P).
      apply (type_of_back tf nf CForget) in E1; [|exact T3|exact H1].
      destruct E1 as [-> [->|(e & -> & TE)]].
      2:{ destruct P as [-> ->]. split; [destruct TE; congruence|left; eauto 6]. }
      rewrite T4 in P. apply bind_back in P. destruct P as (dn & c2 & E2 & P).
      apply bind_back in E2. destruct E2 as (z & c3 & E2 & E3).
      apply catch_back in E2. destruct E2 as (w & -> & E2). injection E3 as <- <-. 
      unfold try_removing_reduction. rewrite T4.
      apply bind_back in E2. destruct E2 as (u & c4 & E2 & E3). unfold cbind at 1. rewrite E2. cbn [obind].
      pose proof (tame_need _ _ _ E2) as [_ TN]. pose proof (still_need _ _ _ E2) as [_ D2].
      destruct u as [u|e].
      2:{ destruct E3 as [-> ->]. injection P as <- <-. split; [destruct TN; congruence|eauto 6]. }
      apply bind_back in E3. destruct E3 as (v & c5 & E3 & E4).
      pose proof (tame_delete cfg x (display tx) _ _ _ E3) as [_ TD].
      destruct v as [[]|e].
      - injection E4 as <- <-. injection P as <- <-. split; [discriminate|]. right. auto.
      - destruct E4 as [-> ->]. injection P as <- <-. split; [destruct TD; congruence|]. left. exists e.
        split; [reflexivity|]. unfold delete_reduction in E3. apply bind_back in E3. destruct E3 as (m & c6 & E5 & E3).
        apply still_read in E5. destruct E5 as [_ D5].
        destruct m as [m|]; [|destruct E3 as [_ ->]; congruence].
        destruct (m_reduction m); [|injection E3 as _ <-; congruence].
        apply bind_back in E3. destruct E3 as (w & c9 & E9 & E3). apply update_pending in E9.
        destruct E9 as (id & -> & _). discriminate. }
    destruct X as [X1 X2]. destruct (K X1) as [-> ->]. exact X2.
  Qed.
End Calls.
