(** Lists whose weakest symbols are left-associative. *)
From Verif Require Import Start Snapshot Search Context StoreFacts MapFacts AstFacts RangeFacts Quiet Grouping Keeping.
From Coq Require Import String List Bool NArith PeanoNat Lia Permutation.
Import ListNotations.
Local Open Scope zia_scope.

Section Cutting.
  Variable cfg : config.
  Variable fuel : nat.
  Hypothesis F : fair cfg.

  Lemma meets_common ts : forall c a r c', meets_left cfg fuel c ts ->
    common_associativity cfg fuel a ts c = Ok (Val r, c') -> r = Some ALeft.
  Proof.
    assert (FIX : forall ts x c r c', common_associativity cfg fuel (Some x) ts c = Ok (Val r, c') -> r = Some x).
    { intros us. induction us as [|t us IH]; intros x c r c' E; cbn [common_associativity] in E; [injection E as <- _; reflexivity|].
      apply bind_back in E. destruct E as ([y|e] & c1 & _ & E); [|destruct E as [E _]; discriminate E].
      destruct (associativity_eqb y x) eqn:Q; [|discriminate E]. apply IH in E. destruct y, x; first [exact E|discriminate Q]. }
    induction ts as [|t ts IH]; intros c a r c' M E; [inversion M|]. cbn [common_associativity] in E.
    apply bind_back in E. destruct E as ([x|e] & c1 & E1 & E); [|destruct E as [E _]; discriminate E].
    assert (E' : common_associativity cfg fuel (Some x) ts c1 = Ok (Val r, c')).
    { destruct a as [y|]; [|exact E]. destruct (associativity_eqb x y); [exact E|discriminate E]. }
    inversion M as [t' ts' d d' A|t' ts' b d d' A M']; subst.
    - rewrite A in E1. injection E1 as <- <-. eapply FIX, E'.
    - rewrite A in E1. injection E1 as <- <-. eapply IH; [exact M'|exact E'].
  Qed.

  Section Fold.
    Variable parse : list tree -> CM tree.
    Variable ts : list tree.
    (** The first step reads the tokens before its position. *)
    Lemma first_step lp c t k c' : try_fold_handler cfg fuel parse ts None lp ALeft c = Ok (Val (t, k), c') ->
      k = lp /\ lt 0 lp /\ parse (firstn lp ts) c = Ok (Val t, c').
    Proof.
      intros E. unfold try_fold_handler in E. apply bind_back in E. destruct E as ([sl|x] & c2 & E1 & E); [|destruct E as [E _]; discriminate E].
      apply lift_back in E1. destruct E1 as [-> S]. cbn in S. apply slice_split in S. destruct S as (_ & L & _ & S & LS).
      cbn [firstn app] in S. destruct sl as [|first rest] eqn:SL; [discriminate E|]. rewrite <- SL in *.
      assert (P : lt 0 lp) by (subst sl; cbn in LS; lia).
      assert (N : Nat.eqb lp (length sl - 1) = false) by (apply Nat.eqb_neq; lia). rewrite N in E.
      apply bind_back in E. destruct E as ([w|x] & c3 & E2 & E); [|destruct E as [E _]; discriminate E].
      injection E as <- <- <-. rewrite S. auto.
    Qed.
    (** After a step no step follows at the same or an earlier position. *)
    Lemma later_step e p lp c x c' : le lp p -> try_fold_handler cfg fuel parse ts (Some (e, p)) lp ALeft c <> Ok (Val x, c').
    Proof.
      intros L E. unfold try_fold_handler in E. apply bind_back in E. destruct E as ([sl|y] & c2 & E1 & E); [|destruct E as [E _]; discriminate E].
      apply lift_back in E1. destruct E1 as [-> S]. cbn in S. apply slice_split in S. destruct S as (L' & _ & _ & _ & LS).
      destruct sl; [discriminate E|]. cbn in LS. lia.
    Qed.
    Lemma folded p rest c st c' : (forall q, In q rest -> le q p) ->
      fold_left_assoc cfg fuel parse ts None (p :: rest) c = Ok (Val st, c') ->
      rest = [] /\ lt 0 p /\ exists t, st = Some (t, p) /\ parse (firstn p ts) c = Ok (Val t, c').
    Proof.
      intros MX E. cbn [fold_left_assoc] in E. apply bind_back in E. destruct E as ([[t k]|x] & c1 & E1 & E); [|destruct E as [E _]; discriminate E].
      apply first_step in E1. destruct E1 as (-> & P & E1). destruct rest as [|q rest].
      - injection E as <- <-. eauto.
      - exfalso. cbn [fold_left_assoc] in E. apply bind_back in E. destruct E as ([x|x] & c2 & E2 & E); [|destruct E as [E _]; discriminate E].
        eapply later_step; [|exact E2]. apply MX. now left.
    Qed.
  End Fold.

  Lemma max_above l x y : heap_max l = Some x -> In y l -> le y x.
  Proof.
    destruct l as [|z l]; [discriminate|]. cbn [heap_max]. intros [= <-]. revert z.
    assert (G : forall l z, le z (fold_left Nat.max l z)).
    { intros m. induction m as [|w m IH]; intros z; cbn; [lia|]. specialize (IH (Nat.max z w)). lia. }
    induction l as [|w l IH]; intros z; cbn; [intros [->|[]]; lia|]. intros [->|[->|I]].
    - specialize (G l (Nat.max y w)). lia.
    - specialize (G l (Nat.max z y)). lia.
    - apply IH. now right.
  Qed.
  Lemma remove_one_all n l : remove_one n l = [] -> forall q, In q l -> q = n.
  Proof.
    induction l as [|y l IH]; cbn; [contradiction|]. destruct (Nat.eqb_spec n y) as [->|]; [|discriminate]. intros ->. intros q [->|[]]. reflexivity.
  Qed.
  Lemma left_lists_cut ts c info c1 u c' : le 3 (length ts) ->
    lowest_precedence_info cfg fuel ts c = Ok (Val info, c1) -> meets_left cfg fuel c1 (ts_syntax info) ->
    parse_list cfg fuel ts c = Ok (Val u, c') ->
    exists p c2, lt 0 p /\ lt p (length ts) /\ (forall q, In q (ts_positions info) -> q = p) /\ unmoved c c2 /\
      ast_from_syntax_list cfg fuel (length ts) (firstn p ts) c2 = Ok (Val u, c').
  Proof.
    intros L I M E. unfold parse_list in E. cbn [ast_from_syntax_list] in E.
    destruct ts as [|t1 [|t2 [|t3 ts]]]; try (cbn in L; lia). set (l := t1 :: t2 :: t3 :: ts) in *.
    apply bind_back in E. destruct E as ([i|x] & c2 & E1 & E); [|destruct E as [E _]; discriminate E].
    rewrite I in E1. injection E1 as <- <-.
    pose proof (traced_info cfg fuel F l _ _ _ I) as (es & A1 & A2 & _ & _ & PB).
    assert (U1 : unmoved c c1) by (eapply about_unmoved; eassumption).
    destruct (ts_positions info) as [|p0 ps] eqn:PS; [discriminate E|]. rewrite <- PS in *.
    apply bind_back in E. destruct E as ([a|x] & c3 & E2 & E); [|destruct E as [E _]; discriminate E].
    assert (U2 : unmoved c1 c3) by (eapply unmoving_common, E2).
    apply (meets_common _ _ _ _ _ M) in E2. subst a.
    apply bind_back in E. destruct E as ([order|x] & c4 & E3 & E); [|destruct E as [E _]; discriminate E].
    unfold heap_iter in E3. destruct (heap_max (ts_positions info)) as [p|] eqn:HM; [|rewrite PS in HM; discriminate HM].
    apply bind_back in E3. destruct E3 as ([o|x] & c5 & E3 & E4); [|destruct E4 as [E4 _]; discriminate E4]. injection E4 as <- <-.
    apply (shuffle_run cfg F) in E3. destruct E3 as (o' & [= <-] & PM & U3 & U4).
    apply bind_back in E. destruct E as ([st|x] & c6 & E5 & E); [|destruct E as [E _]; discriminate E].
    apply folded in E5.
    - destruct E5 as (-> & P & t & -> & E5). injection E as <- <-. exists p, c5. split; [exact P|].
      split; [apply PB; eapply heap_max_in, HM|]. split.
      + apply remove_one_all. apply Permutation_nil, PM.
      + split; [|exact E5]. eapply unmoved_trans; [exact U1|]. eapply unmoved_trans; [exact U2|]. split; assumption.
    - intros q Q. eapply max_above; [exact HM|]. eapply remove_one_in. eapply Permutation_in; [exact PM|exact Q].
  Qed.
End Cutting.
