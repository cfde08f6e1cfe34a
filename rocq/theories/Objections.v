(** What declarations about known words are answered with: which are accepted, which are refused and why. *)
From Verif Require Import Nester NesterFacts CommandFacts Grouping.
From Verif Require Import Start Snapshot Search Context LexerSpec LexerFacts NesterSpec StoreSpec StoreInv NameSpec Names StoreFacts
  MapFacts AstSpec AstFacts RangeFacts History Steps SearchKeeps SearchCaches Questions Existence Wide Earned Repeat CacheLife
  Quiet OneName Indirect Displays Matches Implications Asking Shapes Unruled Spelled Answers Replies Clean Keyed Reductions Flat Outlines Checks Phrases Groups.
From Coq Require Import String List PeanoNat Bool Permutation Lia Relations.
Import ListNotations.
Local Open Scope zia_scope.

Section Store.
  Variables (cfg : config) (snap : snapshot) (fuel : nat).
  Hypothesis F : fair cfg.
  Hypothesis N : self_numbered snap.
  Hypothesis LC : compositions_are_listed snap.
  Hypothesis LR : listed_compositions_are_real snap.
  Hypothesis UL : forall a b, built_in snap a CLabel -> built_in snap b CLabel -> a = b.
  Variable lab : nat.
  Hypothesis CI : concrete_concept_id cfg snap delta_default CLabel = Ok (Some (Committed lab)).
  Hypothesis BL : built_in snap lab CLabel.
  Hypothesis BI : forall cc c, concrete_concept_id cfg snap delta_default cc = Ok (Some c) -> is_built_in snap c cc.
  Hypothesis ON : operators_named snap.
  Variable extra : text -> rresult -> Prop.
  Notation ops n := (search cfg snap fuel n).
  Notation own := (new_env delta_default []).
  Notation good := (good cfg snap fuel extra).
  Notation asked := (asked cfg snap fuel extra).
  Notation own_leaf := (leaf_of cfg snap fuel).

  (** A word as it is read, and an expression that is not a concept. *)
  Definition named_leaf (w : text) (k : nat) (t : tree) : Prop := exists kd, t = TLeaf w (Some (Committed k)) kd /\ kd <> LVariable.
  Definition paired (l r t : tree) : Prop := exists x fv bv, t = TBranch x None l r fv bv.
  (** How the word associates can be asked for without spoiling the memory. *)
  Definition benign (w : text) (k : nat) : Prop := forall n t s y s', named_leaf w k t -> good s -> o_assoc (ops n) own t s = Ok (y, s') -> good s'.

  Lemma made_pair l r : paired l r (new_pair l r).
  Proof. unfold new_pair, branch, paired. match goal with |- context [pair_vars ?x ?y] => destruct (pair_vars x y) end. eauto. Qed.
  Lemma blank_leaf w k t : word w -> named_leaf w k t -> existsb is_whitespace (display t) = false.
  Proof. intros W (kd & -> & _). exact (word_blank _ W). Qed.

  (** The right side of a pair: a word or a pair that begins with a word. *)
  Definition calm (r : tree) : Prop :=
    (exists v b, word v /\ named_leaf v b r) \/ (exists v b l r', word v /\ named_leaf v b l /\ benign v b /\ paired l r' r).
  Lemma put_together n w a l r s t s' : word w -> named_leaf w a l -> calm r -> good s ->
    (forall v b, named_leaf v b r -> uncomposed snap a b) ->
    combine_ast cfg snap (ops n) own l r s = Ok (t, s') -> good s' /\ paired l r t.
  Proof.
    intros Ww Lw C G U E. unfold combine_ast in E. apply sb in E. destruct E as (c & s1 & Ec & E).
    assert (c = None /\ s1 = s) as [-> ->].
    { unfold composition_concept in Ec. destruct Lw as (kd & -> & _). cbn [t_concept] in Ec.
      destruct C as [(v & b & Wv & Lv)|(v & b & l' & r' & Wv & Lv & Bv & (x & fv & bv & ->))]; [|injection Ec as <- <-; auto].
      pose proof Lv as (kd' & -> & _). cbn [t_concept] in Ec. apply sb in Ec. destruct Ec as (m & s2 & R & Ec). apply read_ok in R.
      destruct R as [R ->]. injection Ec as <- <-. split; [|reflexivity]. unfold known in R.
      apply (wide_back cfg snap _ (WidensSame _)) in R. destruct R as (c & L & ->).
      cbn [m_find_as_hand mixed_of_committed ch_left aget]. unfold find_as_hand, hand_of.
      destruct (aget Nat.eqb b (lefthand_of c)) as [p|] eqn:A; [|reflexivity]. exfalso. apply (U _ _ Lv p), LR. left. exists c. auto. }
    apply sb in E. destruct E as (j & s1 & E1 & [= <- <-]).
    unfold join in E1. apply sb in E1. destruct E1 as (x & s2 & E1 & [= <- <-]).
    split.
    - unfold display_joint in E1. rewrite (blank_leaf _ _ _ Ww Lw) in E1.
      apply sb in E1. destruct E1 as (y & s1 & [= <- <-] & E1). apply sb in E1. destruct E1 as (y & s1 & E1 & [= <- <-]).
      destruct C as [(v & b & Wv & Lv)|(v & b & l' & r' & Wv & Lv & Bv & (z & fv & bv & ->))].
      + rewrite (blank_leaf _ _ _ Wv Lv) in E1. injection E1 as _ <-. exact G.
      + destruct (existsb is_whitespace _); [|injection E1 as _ <-; exact G]. cbn [t_exp] in E1.
        apply sb in E1. destruct E1 as (q & s3 & E1 & [= <- <-]). exact (Bv _ _ _ _ _ Lv G E1).
    - unfold bind_pair, branch, paired, from_text. cbn [t_syntax t_concept].
      match goal with |- context [pair_vars ?x ?y] => destruct (pair_vars x y) end. eauto.
  Qed.
  (** The same for two words of which something may be composed. *)
  Lemma put_words_together n w a v b l r s t s' : word w -> word v -> named_leaf w a l -> named_leaf v b r -> good s ->
    combine_ast cfg snap (ops n) own l r s = Ok (t, s') ->
    good s' /\ exists x k fv bv, t = TBranch x k l r fv bv /\ forall i, k = Some i -> exists p, i = Committed p /\ composed snap p a b.
  Proof.
    intros Ww Wv Lw Lv G E. unfold combine_ast in E. apply sb in E. destruct E as (c & s1 & Ec & E).
    assert (s1 = s /\ forall i, c = Some i -> exists p, i = Committed p /\ composed snap p a b) as [-> Q].
    { unfold composition_concept in Ec. destruct Lw as (kd & -> & _), Lv as (kd' & -> & _). cbn [t_concept] in Ec.
      apply sb in Ec. destruct Ec as (m & s2 & R & Ec). apply read_ok in R.
      destruct R as [R ->]. injection Ec as <- <-. split; [reflexivity|]. intros i. unfold known in R.
      apply (wide_back cfg snap _ (WidensSame _)) in R. destruct R as (c & L & ->).
      cbn [m_find_as_hand mixed_of_committed ch_left aget]. unfold find_as_hand, hand_of.
      destruct (aget Nat.eqb b (lefthand_of c)) as [p|] eqn:A; [|discriminate]. intros [= <-]. exists p. split; [reflexivity|]. apply LR. left. exists c. auto. }
    apply sb in E. destruct E as (j & s1 & E1 & E).
    unfold join in E1. apply sb in E1. destruct E1 as (x & s2 & E1 & [= <- <-]).
    assert (s2 = s) as ->.
    { unfold display_joint in E1. rewrite (blank_leaf _ _ _ Ww Lw) in E1.
      apply sb in E1. destruct E1 as (y & s1 & [= <- <-] & E1). apply sb in E1. destruct E1 as (y & s1 & E1 & [= <- <-]).
      rewrite (blank_leaf _ _ _ Wv Lv) in E1. injection E1 as _ <-. reflexivity. }
    unfold bind_pair, branch, from_text in E. cbn [t_syntax t_concept] in E.
    destruct (pair_vars l r) as [fv bv]. destruct c as [i|].
    - destruct (Q i eq_refl) as (p & -> & C). apply lifted in E. destruct E as [E ->]. split; [exact G|].
      unfold bind_concept_to_syntax in E. apply obind_ok in E. destruct E as (ty & E2 & E).
      assert (ty = None) as ->.
      { unfold concrete_concept_type in E2. apply obind_ok in E2. destruct E2 as (m & R & [= <-]). cbn [e_delta own] in R.
        apply (wide_back cfg snap _ (WidensSame _)) in R. destruct R as (o & L & ->). destruct C as (c0 & fv0 & bv0 & red & L' & Sp).
        rewrite L in L'. injection L' as <-. cbn. unfold get_concrete. rewrite Sp. reflexivity. }
      injection E as <-. cbn [bind_nonquantifier]. exists (Some x), (Some (Committed p)), fv, bv. split; [reflexivity|exact Q].
    - injection E as <- <-. split; [exact G|]. exists (Some x), None, fv, bv. split; [reflexivity|exact Q].
  Qed.
  Lemma pair_read w a l r c x c' : word w -> named_leaf w a l -> calm r -> asked c ->
    (forall v b, named_leaf v b r -> uncomposed snap a b) ->
    ast_from_pair cfg fuel l r c = Ok (x, c') -> asked c' /\ exists t, x = Val t /\ paired l r t.
  Proof.
    intros Ww Lw C H U E. pose proof (search_clean cfg snap fuel fuel) as Cl. assert (S := proj1 H).
    unfold ast_from_pair in E. apply bind_back in E. destruct E as (ty & c2 & E3 & E).
    assert (exists ty', ty = Val ty' /\ c2 = c) as (ty' & -> & ->).
    { unfold c_concrete_type_of in E3. destruct (t_concept r) as [id|]; [|injection E3 as <- <-; eauto].
      unfold c_concrete_type in E3. apply lift_clean in E3; [|apply clean_type]. destruct E3 as (-> & ty' & -> & _). eauto. }
    apply bind_back in E. destruct E as (uu & c2 & E4 & E).
    assert (uu = Val tt /\ c2 = c) as [-> ->].
    { assert (V : is_leaf_variable l = false) by (destruct Lw as ([] & -> & K); try reflexivity; congruence).
      rewrite V, andb_false_r in E4. injection E4 as <- <-. auto. }
    unfold c_combine in E. apply (asked_search cfg snap fuel extra _ (paired l r)) in E; [exact E|exact H| |].
    - unfold Parser.ops_of. rewrite S. apply combine_ast_clean, Cl.
    - intros s q s' G X. unfold Parser.ops_of in X. rewrite S in X. exact (put_together _ _ _ _ _ _ _ _ Ww Lw C G U X).
  Qed.
  Lemma leaf_expanded n w k s t l s' : settled_symbol snap k w -> named_leaf w k l -> good s -> o_expand (ops n) own l s = Ok (t, s') ->
    good s' /\ named_leaf w k t /\ own_leaf k t.
  Proof.
    intros St (kd & -> & _) G E. destruct (own_expand cfg snap fuel F N LR extra _ _ _ _ _ _ _ (proj1 St) G E) as [G1 L].
    split; [exact G1|]. split; [|exact L]. exact (settled_leaf cfg snap fuel LC LR UL lab CI BL _ _ _ St L).
  Qed.
  Lemma pair_expanded n l r t s u s' : paired l r t -> o_expand (ops (S n)) own t s = Ok (u, s') ->
    exists l' s1 r' s2, o_expand (ops n) own l s = Ok (l', s1) /\ o_expand (ops n) own r s1 = Ok (r', s2) /\
      combine_ast cfg snap (ops n) own l' r' s2 = Ok (u, s').
  Proof.
    intros (x & fv & bv & ->) E. cbn [search step o_expand] in E. unfold expand in E. cbn [t_concept t_exp] in E.
    apply sb in E. destruct E as (l' & s1 & E1 & E). apply sb in E. destruct E as (r' & s2 & E2 & E). eauto 8.
  Qed.
  Lemma leaf_created w k t c : named_leaf w k t -> create_variable_concepts t c = Ok (Val t, c).
  Proof. intros (kd & -> & K). destruct kd; try congruence; reflexivity. Qed.
  Lemma pair_created l r t : paired l r t -> (forall c, create_variable_concepts l c = Ok (Val l, c)) ->
    (forall c, create_variable_concepts r c = Ok (Val r, c)) -> forall c, create_variable_concepts t c = Ok (Val t, c).
  Proof. intros (x & fv & bv & ->) L R c. cbn [create_variable_concepts]. unfold cbind. rewrite L. cbn [obind]. rewrite R. reflexivity. Qed.
  Lemma type_known k cc t c r c' : built_in snap k cc -> t_concept t = Some (Committed k) -> asked c -> c_concrete_type_of cfg t c = Ok (r, c') ->
    r = Val (Some cc) /\ c' = c.
  Proof.
    intros Bk T (S & D & _) E. unfold c_concrete_type_of, c_concrete_type in E. rewrite T in E. apply lift_clean in E; [|apply clean_type].
    destruct E as (-> & ty & -> & E). split; [|reflexivity]. rewrite S, D in E. unfold concrete_concept_type in E. apply obind_ok in E.
    destruct E as (m & R & [= <-]). apply (wide_back cfg snap _ (WidensSame _)) in R. destruct R as (o & L & ->).
    destruct Bk as (c0 & L' & Sp). rewrite L in L'. injection L' as <-. cbn. unfold get_concrete. rewrite Sp. reflexivity.
  Qed.

  Section Declaration.
    Variables (lt ar a b : nat) (w v : text).
    Hypothesis LB : built_in snap lt CLet.
    Hypothesis AB : built_in snap ar CReduction.
    Hypothesis Sl : settled_symbol snap lt (txt "let").
    Hypothesis Sr : settled_symbol snap ar (txt "->").
    Hypothesis Sw : settled_symbol snap a w.
    Hypothesis Sv : settled_symbol snap b v.
    Hypothesis Ml : means snap (txt "let") lt.
    Hypothesis Mr : means snap (txt "->") ar.
    Hypothesis Mw : means snap w a.
    Hypothesis Mv : means snap v b.
    Hypothesis U : uncomposed snap ar b.
    Hypothesis Qw : benign w a.
    Hypothesis Qr : benign (txt "->") ar.
    Notation command := (spelled (Both (Word (txt "let")) (Both (Word w) (Both (Word (txt "->")) (Word v))))).
    Definition declaration (ok : tree -> Prop) (t : tree) : Prop := exists l1 l2 l3 l4 u u', ok l2 /\ named_leaf (txt "let") lt l1 /\ named_leaf w a l2 /\
      named_leaf (txt "->") ar l3 /\ named_leaf v b l4 /\ paired l3 l4 u /\ paired l2 u u' /\ paired l1 u' t.
    Lemma declaration_expanded n t s u s' : declaration (fun _ => True) t -> good s -> o_expand (ops n) own t s = Ok (u, s') -> good s' /\ declaration (own_leaf a) u.
    Proof.
      intros (l1 & l2 & l3 & l4 & p & q & _ & L1 & L2 & L3 & L4 & P & Q & R) G E.
      assert (UL1 : forall x y z t, paired x y t -> forall v b, named_leaf v b t -> uncomposed snap z b).
      { intros x y z t0 (? & ? & ? & ->) v0 b0 (? & ? & _). discriminate. }
      destruct n as [|n]; [discriminate|]. destruct (pair_expanded _ _ _ _ _ _ _ R E) as (m1 & s1 & q' & s2 & E1 & E2 & E3).
      destruct (leaf_expanded _ _ _ _ _ _ _ Sl L1 G E1) as (G1 & M1 & _).
      destruct n as [|n]; [discriminate|]. destruct (pair_expanded _ _ _ _ _ _ _ Q E2) as (m2 & s3 & p' & s4 & E4 & E5 & E6).
      destruct (leaf_expanded _ _ _ _ _ _ _ Sw L2 G1 E4) as (G3 & M2 & O2).
      destruct n as [|n]; [discriminate|]. destruct (pair_expanded _ _ _ _ _ _ _ P E5) as (m3 & s5 & m4 & s6 & E7 & E8 & E9).
      destruct (leaf_expanded _ _ _ _ _ _ _ Sr L3 G3 E7) as (G5 & M3 & _).
      destruct (leaf_expanded _ _ _ _ _ _ _ Sv L4 G5 E8) as (G6 & M4 & _).
      apply (put_together _ (txt "->") ar) in E9; [|apply Mr|exact M3|left; exists v, b; split; [apply Mv|exact M4]|exact G6|].
      2:{ intros v0 b0 L. destruct M4 as (? & -> & _), L as (? & [= <- <- <-] & _). exact U. }
      destruct E9 as [G4 P'].
      apply (put_together _ w a) in E6; [|apply Mw|exact M2|right; exists (txt "->"), ar, m3, m4; split; [apply Mr|auto]|exact G4|exact (UL1 _ _ _ _ P')].
      destruct E6 as [G2 Q'].
      apply (put_together _ (txt "let") lt) in E3; [|apply Ml|exact M1|right; exists w, a, m2, p'; split; [apply Mw|auto]|exact G2|exact (UL1 _ _ _ _ Q')].
      destruct E3 as [G7 R']. split; [exact G7|]. exists m1, m2, m3, m4, p', q'. auto 9.
    Qed.
    Lemma word_spelled c0 u k n c r c' : c_snap c0 = snap -> c_delta c0 = delta_default -> spells (kind_of_symbol cfg fuel c0) (Word u) n -> means snap u k ->
      asked c -> ast_from_nested_syntax cfg fuel n c = Ok (r, c') -> c' = c /\ exists t, r = Val t /\ named_leaf u k t.
    Proof.
      intros S0 D0 X M H E. remember (Word u) as p eqn:Ep. revert Ep c r c' H E.
      induction X as [w0 k0 K|x y nx ny s Xx _ Xy _|p n s X IH]; intros Ep c r c' H E; [injection Ep as ->|discriminate Ep|].
      - assert (H' := H). destruct H' as (S & D & _). rewrite (kind_same cfg fuel c0 c) in K by congruence. rewrite <- S in M.
        destruct (leaf_known _ _ _ _ _ _ _ _ F D M K E) as (lk & -> & Nl & ->). split; [reflexivity|]. eexists. split; [reflexivity|]. exists lk. auto.
      - cbn [ast_from_nested_syntax] in E. apply bind_back in E. destruct E as (ts & c1 & E1 & E).
        apply bind_back in E1. destruct E1 as (ta & c2 & Ea & E1).
        destruct (IH Ep _ _ _ H Ea) as (-> & ta' & -> & Ra). injection E1 as <- <-.
        unfold parse_list in E. cbn in E. injection E as <- <-. eauto.
    Qed.
    Lemma both_spelled c0 x y n c r c' : c_snap c0 = snap -> c_delta c0 = delta_default -> spells (kind_of_symbol cfg fuel c0) (Both x y) n ->
      ast_from_nested_syntax cfg fuel n c = Ok (r, c') ->
      exists nx ny, spells (kind_of_symbol cfg fuel c0) x nx /\ spells (kind_of_symbol cfg fuel c0) y ny /\
        cbind (ast_from_nested_syntax cfg fuel nx) (fun tx => cbind (ast_from_nested_syntax cfg fuel ny) (fun ty => ast_from_pair cfg fuel tx ty)) c = Ok (r, c').
    Proof.
      intros S0 D0 X E. remember (Both x y) as p eqn:Ep. revert Ep c r c' E.
      induction X as [w0 k0 K|x' y' nx ny s Xx _ Xy _|p n s X IH]; intros Ep c r c' E; [discriminate Ep|injection Ep as -> ->|].
      - exists nx, ny. split; [exact Xx|]. split; [exact Xy|]. cbn [ast_from_nested_syntax] in E. unfold cbind in *.
        destruct (ast_from_nested_syntax cfg fuel nx c) as [[[tx|e] c2]|e|q|]; cbn [obind] in E |- *; try exact E.
        destruct (ast_from_nested_syntax cfg fuel ny c2) as [[[ty|e] c3]|e|q|]; cbn [obind] in E |- *; try exact E.
      - cbn [ast_from_nested_syntax] in E. apply bind_back in E. destruct E as (ts & c1 & E1 & E).
        apply bind_back in E1. destruct E1 as (ta & c2 & Ea & E1). destruct (IH Ep _ _ _ Ea) as (nx & ny & Xx & Xy & E2).
        exists nx, ny. split; [exact Xx|]. split; [exact Xy|]. rewrite E2. destruct ta as [ta|e].
        + injection E1 as <- <-. unfold parse_list in E. cbn in E. injection E as <- <-. reflexivity.
        + destruct E1 as [-> ->]. destruct E as [-> ->]. reflexivity.
    Qed.
    Lemma declaration_read c r c' : asked c -> ast_from_expression cfg fuel command c = Ok (r, c') -> asked c' /\ exists t, r = Val t /\ declaration (fun _ => True) t.
    Proof.
      intros H E. assert (H' := H). destruct H' as (S & D & _).
      apply both_read in E; [|exact D|].
      2:{ intros y [<-|[<-|[<-|[<-|[]]]]]; [apply Ml|apply Mw|apply Mr|apply Mv]. }
      destruct E as (na & nb & Xa & Xb & E). apply bind_back in E. destruct E as (t1 & c1 & E1 & E).
      destruct (word_spelled _ _ _ _ _ _ _ S D Xa Ml H E1) as (-> & t1' & -> & L1).
      apply bind_back in E. destruct E as (tq & c1 & E2 & E).
      destruct (both_spelled _ _ _ _ _ _ _ S D Xb E2) as (nw & np & Xw & Xp & E3). clear E2.
      apply bind_back in E3. destruct E3 as (t2 & c2 & E4 & E3).
      destruct (word_spelled _ _ _ _ _ _ _ S D Xw Mw H E4) as (-> & t2' & -> & L2).
      apply bind_back in E3. destruct E3 as (tp & c2 & E5 & E3).
      destruct (both_spelled _ _ _ _ _ _ _ S D Xp E5) as (no & nv & Xo & Xv & E6). clear E5.
      apply bind_back in E6. destruct E6 as (t3 & c3 & E7 & E6).
      destruct (word_spelled _ _ _ _ _ _ _ S D Xo Mr H E7) as (-> & t3' & -> & L3).
      apply bind_back in E6. destruct E6 as (t4 & c3 & E8 & E6).
      destruct (word_spelled _ _ _ _ _ _ _ S D Xv Mv H E8) as (-> & t4' & -> & L4).
      apply (pair_read (txt "->") ar) in E6; [|apply Mr|exact L3|left; exists v, b; split; [apply Mv|exact L4]|exact H|].
      2:{ intros v0 b0 L. destruct L4 as (? & -> & _), L as (? & [= <- <- <-] & _). exact U. }
      destruct E6 as (H2 & tp' & -> & P).
      apply (pair_read w a) in E3; [|apply Mw|exact L2|right; exists (txt "->"), ar, t3', t4'; split; [apply Mr|auto]|exact H2|].
      2:{ intros v0 b0 L. destruct P as (? & ? & ? & ->), L as (? & ? & _). discriminate. }
      destruct E3 as (H1 & tq' & -> & Q). injection E as <- <-. split; [exact H1|]. eexists. split; [reflexivity|].
      exists t1', t2', t3', t4', tp', tq'. split; [exact I|]. repeat (split; [assumption|]). apply made_pair.
    Qed.
    (** The declaration comes down to [execute_reduction]. *)
    Lemma declaration_run c r c' : asked c -> run_command cfg fuel command c = Ok (r, c') ->
      exists ta tb c1 x, asked c1 /\ pinned c1 = pinned c /\ own_leaf a ta /\ named_leaf w a ta /\ named_leaf v b tb /\ execute_reduction cfg fuel ta tb c1 = Ok (x, c') /\
        r = match x with Val _ => Val [] | Fail e => Fail e end.
    Proof.
      intros H E. unfold run_command in E. pose proof (search_clean cfg snap fuel fuel) as Cl.
      apply bind_back in E. destruct E as (t & c1 & E1 & E). destruct (declaration_read _ _ _ H E1) as (H1 & t1 & -> & T1). assert (S1 := proj1 H1).
      assert (Pn1 : pinned c1 = pinned c) by (apply logs_expression in E1; apply E1).
      apply bind_back in E. destruct E as (t & c2 & E2 & E). pose proof E2 as E2'. unfold c_expand in E2.
      apply (asked_search cfg snap fuel extra _ (declaration (own_leaf a))) in E2; [|exact H1| |].
      2:{ unfold ops_of. rewrite S1. apply (oc_expand _ Cl). }
      2:{ intros s q s' G X. unfold ops_of in X. rewrite S1 in X. exact (declaration_expanded _ _ _ _ _ T1 G X). }
      assert (Pn2 : pinned c2 = pinned c1) by (apply still_expand in E2'; apply E2').
      destruct E2 as (H2 & t2 & -> & T2). apply bind_back in E. destruct E as (q & c3 & E2 & E).
      destruct T2 as (l1 & l2 & l3 & l4 & p & q' & O2 & L1 & L2 & L3 & L4 & P & Q & R).
      rewrite (pair_created _ _ _ R) in E2; [|intros; exact (leaf_created _ _ _ _ L1)|].
      2:{ apply (pair_created _ _ _ Q); [intros; exact (leaf_created _ _ _ _ L2)|]. apply (pair_created _ _ _ P); intros; [exact (leaf_created _ _ _ _ L3)|exact (leaf_created _ _ _ _ L4)]. }
      cbn [obind] in E2. injection E2 as <- <-.
      destruct R as (x1 & f1 & b1 & ->), Q as (x2 & f2 & b2 & ->), P as (x3 & f3 & b3 & ->).
      eapply call_by_pair in E; [|reflexivity|reflexivity]. destruct E as (n & x & c4 & P & K).
      destruct n as [|n]; [discriminate|]. cbn [calls snd] in P. unfold call_pair_step in P.
      apply bind_back in P. destruct P as (ty & c5 & E1' & P).
      apply (type_known lt CLet) in E1'; [|exact LB|destruct L1 as (? & -> & _); reflexivity|exact H2]. destruct E1' as [-> ->].
      apply bind_back in P. destruct P as (dn & c5 & E2 & P).
      apply bind_back in E2. destruct E2 as (y & c6 & E2 & E3).
      unfold call_let in E2. cbn [t_exp] in E2.
      apply bind_back in E2. destruct E2 as (at_ & c7 & E2 & E4).
      apply bind_back in E2. destruct E2 as (z & c8 & E2 & E5).
      apply catch_back in E2. destruct E2 as (w0 & -> & E2). injection E5 as <- <-.
      exists l2, l4, c2, w0. split; [exact H2|]. split; [congruence|]. split; [exact O2|]. split; [exact L2|]. split; [exact L4|].
      clear E2'. assert (E2' : execute_reduction cfg fuel l2 l4 c2 = Ok (w0, c8)).
      { revert E2. generalize fuel at 2. intros [|k] E2; [discriminate|]. cbn [match_righthand_pair] in E2.
        destruct L3 as (k3 & -> & _). cbn [t_concept] in E2.
        apply bind_back in E2. destruct E2 as (ty & c6' & E6 & E2).
        assert (ty = Val (Some CReduction) /\ c6' = c2) as [-> ->].
        { apply (type_known ar CReduction (TLeaf (txt "->") (Some (Committed ar)) k3)); [exact AB|reflexivity|exact H2|]. exact E6. }
        exact E2. }
      assert (TE : forall e, w0 = Fail e -> e <> CannotReduceFurther /\ e <> UnusedSymbol).
      { intros e ->. apply tame_execute_reduction in E2'. exact (proj2 E2'). }
      clear E2. destruct w0 as [[]|e].
      - injection E4 as <- <-. injection E3 as <- <-. injection P as <- <-. destruct K as [-> ->]; [discriminate|]. auto.
      - destruct (TE e eq_refl) as [T1' T2'].
        assert (X : x = Fail e /\ c4 = c8).
        { destruct e; try congruence; injection E4 as <- <-; injection E3 as <- <-; injection P as <- <-; auto. }
        destruct X as [-> ->]. destruct K as [-> ->]; [congruence|]. auto.
    Qed.
  End Declaration.
  (** What is found at the end of the chain of declarations. *)
  Notation chain := (clos_refl_trans nat (reduces snap)).
  Lemma store_follows n : forall k r, get_normal_form cfg snap delta_default n (Committed k) = Ok r ->
    match r with
    | None => forall q, ~ reduces snap k q
    | Some z => exists e q, z = Committed e /\ reduces snap k q /\ chain q e /\ forall q, ~ reduces snap e q
    end.
  Proof.
    induction n as [|n IH]; intros k r E; [discriminate|]. cbn [get_normal_form] in E. apply obind_ok in E. destruct E as (m & R & E).
    apply (wide_back cfg snap _ (WidensSame _)) in R. destruct R as (o & L & ->). cbn [m_reduction mixed_of_committed] in E.
    unfold get_reduction in E. destruct (c_spec o) as [|kk [q|]|] eqn:Sp; cbn [option_map] in E.
    2:{ apply obind_ok in E. destruct E as (z & E1 & [= <-]). apply IH in E1.
        assert (Re : reduces snap k q) by (exists o, kk; auto).
        destruct z as [z|].
        - destruct E1 as (e & q' & -> & R1 & R2 & R3). exists e, q. split; [reflexivity|]. split; [exact Re|]. split; [|exact R3].
          eapply rt_trans; [apply rt_step; exact R1|exact R2].
        - exists q, q. split; [reflexivity|]. split; [exact Re|]. split; [apply rt_refl|exact E1]. }
    all: injection E as <-; intros q (o' & m & L' & S'); congruence.
  Qed.
  Lemma chain_end a b e : chain a b -> (forall q, ~ reduces snap b q) -> chain a e -> (forall q, ~ reduces snap e q) -> b = e.
  Proof.
    intros C. apply clos_rt_rt1n in C. revert e. induction C as [a|a m b R C IH]; intros e Nb D Ne; apply clos_rt_rt1n in D.
    - destruct D as [|m e R D]; [reflexivity|]. destruct (Nb _ R).
    - destruct D as [|m' e R' D]; [destruct (Ne _ R)|]. rewrite (reduces_one snap _ _ _ R' R) in D. apply clos_rt1n_rt in D. exact (IH _ Nb D Ne).
  Qed.
  Lemma clean_composition n k : elementary snap k -> clean (get_reduction_of_composition cfg snap delta_default n (Committed k)).
  Proof.
    intros El e. destruct n as [|n]; [discriminate|]. cbn [get_reduction_of_composition].
    destruct (read_concept cfg snap delta_default (Committed k)) as [m|e'| |] eqn:R; cbn [obind]; try discriminate.
    - rewrite (proj2 (elementary_string cfg snap _ _ El R)). discriminate.
    - exfalso. exact (clean_read _ _ _ _ _ R).
  Qed.
  Lemma declaration_judged a b w v ta tb z z' c x c' : ends snap a z z' -> (w = v <-> a = b) -> settled_symbol snap a w ->
    own_leaf a ta -> named_leaf w a ta -> named_leaf v b tb -> pinned c = false -> asked c -> execute_reduction cfg fuel ta tb c = Ok (x, c') ->
    (a <> b -> forall q u, reduces snap a q -> settled_symbol snap q u -> x = Fail (ExistingReduction w u) /\ asked c') /\
    (a <> b -> (forall q, ~ reduces snap a q) -> chain b a -> x = Fail CyclicReduction /\ asked c') /\
    (a <> b -> (forall q, ~ reduces snap a q) -> ~ chain b a -> x = Val tt) /\
    (a = b -> (forall q, ~ reduces snap a q) -> x = Fail (RedundantReduction w) /\ asked c') /\
    (a = b -> forall q, reduces snap a q -> x = Val tt /\ c_cache c' = empty_cache /\ exists y m,
       pending c' = [(Committed a, DReduce (Committed a) (Remove y))] /\ read_concept cfg snap delta_default (Committed a) = Ok m /\ m_reduction m = Some y).
  Proof.
    intros En Ew St Oa La Lb Pn H E. pose proof (search_clean cfg snap fuel fuel) as Cl. assert (H' := H). destruct H' as (S & D & _).
    destruct La as (ka & -> & Ka). destruct Lb as (kb & -> & _). unfold execute_reduction in E. cbn [t_contains] in E.
    destruct (key_eqb_spec (t_key (TLeaf w (Some (Committed a)) ka)) (t_key (TLeaf v (Some (Committed b)) kb))) as [K|K].
    - assert (a = b) as <- by (unfold t_key in K; cbn in K; congruence).
      repeat (split; [intros X; destruct (X eq_refl)|]).
      unfold try_removing_reduction in E. cbn [t_concept display] in E. apply bind_back in E. destruct E as (u & c1 & E1 & E).
      assert (u = Val tt /\ c1 = c) as [-> ->] by (unfold need_delta in E1; rewrite Pn in E1; injection E1 as <- <-; auto). clear E1.
      unfold delete_reduction, c_read in E. apply bind_back in E. destruct E as (m & c1 & E1 & E).
      apply lift_clean in E1; [|apply clean_read]. destruct E1 as (-> & m' & -> & R). rewrite S, D in R. split; intros _.
      + intros Nr. rewrite (no_reduction_read _ _ _ _ Nr R) in E. injection E as <- <-. auto.
      + intros q Rq. rewrite (reduction_read _ _ _ _ _ Rq R) in E. apply bind_back in E. destruct E as (i & c1 & E1 & E). pose proof E1 as E2.
        apply update_pending in E1. destruct E1 as (id & -> & _ & P1 & _ & ID). injection E as <- <-. split; [reflexivity|]. split; [unfold update in E2; apply obind_ok in E2; destruct E2 as ([id' d'] & _ & E2); injection E2 as _ <-; reflexivity|].
        exists (Committed q), m'. split; [|split; [exact R|exact (reduction_read _ _ _ _ _ Rq R)]]. rewrite P1, ID. unfold pending. rewrite D. reflexivity.
    - assert (NE : a <> b) by (intros <-; apply K; rewrite (proj2 Ew eq_refl); reflexivity).
      apply bind_back in E. destruct E as (o & c1 & E1 & E). pose proof E1 as E1'. unfold c_reduce in E1.
      apply (asked_search cfg snap fuel extra _ (right_for cfg snap fuel a)) in E1; [|exact H| |].
      2:{ unfold ops_of. rewrite S. apply (oc_reduce _ Cl). }
      2:{ intros s q s' G X. unfold ops_of in X. rewrite S in X.
          exact (own_reduce_leaf cfg snap fuel F N LC LR UL lab CI BL BI ON extra _ _ _ _ _ _ _ _ _ En G X). }
      destruct E1 as (H1 & r & -> & Rr). assert (S1 := proj1 H1).
      assert (Pn1 : pinned c1 = false) by (rewrite <- Pn; apply (still_reduce cfg fuel) in E1'; apply E1').
      apply bind_back in E. destruct E as (o & c2 & E2 & E). destruct r as [[u why]|].
      + destruct Rr as (q & Rq & Lq). injection E2 as <- <-. injection E as <- <-.
        split; [|split; [intros _ Nr; destruct (Nr _ Rq)|split; [intros _ Nr; destruct (Nr _ Rq)|split; intros X; destruct (NE X)]]].
        intros _ q' u' Rq' Su. rewrite <- (reduces_one snap _ _ _ Rq Rq') in Su.
        destruct (settled_leaf cfg snap fuel LC LR UL lab CI BL _ _ _ Su Lq) as (kd & -> & _). split; [reflexivity|exact H1].
      + assert (Pn2 : pinned c2 = false) by (rewrite <- Pn1; apply (still_inferred cfg fuel) in E2; apply E2).
        unfold c_inferred in E2. apply (asked_search cfg snap fuel extra _ (fun r => r = None)) in E2; [|exact H1| |].
        2:{ unfold ops_of. rewrite S1. apply inferred_clean, Cl. }
        2:{ intros s q s' G X. unfold ops_of in X. rewrite S1 in X.
            exact (own_inferred cfg snap fuel F N LC LR UL lab CI BL BI ON extra _ _ _ _ _ _ _ St Oa G X). }
        destruct E2 as (H2 & r & -> & ->). apply bind_back in E. destruct E as (uu & c3 & E3 & E).
        assert (uu = Val tt /\ c3 = c2) as [-> ->] by (unfold need_delta in E3; rewrite Pn2 in E3; injection E3 as <- <-; auto). clear E3.
        apply bind_back in E. destruct E as (i & c3 & E3 & E). cbn [concept_from_ast] in E3. injection E3 as <- <-.
        apply bind_back in E. destruct E as (j & c3 & E3 & E). cbn [concept_from_ast] in E3. injection E3 as <- <-.
        unfold update_reduction in E. apply bind_back in E. destruct E as (nf & c3 & E3 & E).
        apply lift_clean in E3; [|apply clean_normal_form]. destruct E3 as (-> & nf' & -> & Nf).
        assert (H2' := H2). destruct H2' as (S2 & D2 & _). rewrite S2, D2 in Nf. apply store_follows in Nf. cbn [right_for] in Rr.
        assert (Cyc : chain b a <-> nf' = Some (Committed a)).
        { destruct nf' as [y|].
          - destruct Nf as (e & q & -> & Rq & Ce & Ne). assert (Cb : chain b e) by (eapply rt_trans; [apply rt_step; exact Rq|exact Ce]). split.
            + intros Ca. rewrite (chain_end _ _ _ Ca Rr Cb Ne). reflexivity.
            + intros [= ->]. exact Cb.
          - split; [|discriminate]. intros Ca. exfalso. apply NE. apply (chain_end _ _ _ Ca Rr (rt_refl _ _ _) Nf). }
        split; [intros _ q' u' Rq'; destruct (Rr _ Rq')|].
        destruct (option_eqb cid_eqb nf' (Some (Committed a))) eqn:Q.
        * assert (nf' = Some (Committed a)) as ->.
          { destruct nf' as [y|]; [|discriminate]. cbn [option_eqb] in Q. destruct (cid_eqb_spec y (Committed a)) as [->|]; [reflexivity|discriminate]. }
          injection E as <- <-. split; [intros _ _ _; auto|]. split; [intros _ _ X; destruct (X (proj2 Cyc eq_refl))|split; intros X; destruct (NE X)].
        * assert (X : nf' <> Some (Committed a)).
          { intros ->. cbn [option_eqb] in Q. destruct (cid_eqb_spec (Committed a) (Committed a)); congruence. }
          split; [intros _ _ Y; destruct (X (proj1 Cyc Y))|]. split; [|split; intros Y; destruct (NE Y)]. intros _ _ _.
          apply bind_back in E. destruct E as (m & c3 & E3 & E). unfold c_read in E3.
          apply lift_clean in E3; [|apply clean_read]. destruct E3 as (-> & m' & -> & R). rewrite S2, D2 in R.
          rewrite (no_reduction_read _ _ _ _ Rr R) in E. cbn [option_eqb] in E.
          apply bind_back in E. destruct E as (rc & c3 & E3 & E). apply lift_clean in E3; [|rewrite S2, D2; exact (clean_composition _ _ (proj1 St))].
          destruct E3 as (-> & rc' & -> & Rc). rewrite S2, D2 in Rc.
          assert (rc' = Committed a) as ->.
          { revert Rc. generalize fuel. intros [|n] Rc; [discriminate|]. cbn [get_reduction_of_composition] in Rc. apply obind_ok in Rc.
            destruct Rc as (m & R' & Rc). rewrite (proj2 (elementary_string cfg snap _ _ (proj1 St) R')) in Rc. injection Rc as <-. reflexivity. }
          destruct (cid_eqb_spec (Committed b) (Committed a)) as [Y|_]; [congruence|].
          apply bind_back in E. destruct E as (id & c3 & E3 & E). unfold update in E3. apply obind_ok in E3. destruct E3 as ([id' d'] & _ & E3).
          injection E3 as <- <-. injection E as <- <-. reflexivity.
  Qed.
  (** Forgetting what was not declared. *)
  Lemma forgetting_run fg a w c r c' : built_in snap fg CForget -> settled_symbol snap fg (txt "forget") -> settled_symbol snap a w ->
    means snap (txt "forget") fg -> means snap w a -> uncomposed snap fg a -> pinned c = false -> asked c ->
    run_command cfg fuel (spelled (Both (Word (txt "forget")) (Word w))) c = Ok (r, c') ->
    ((forall q, ~ reduces snap a q) -> r = Fail (RedundantReduction w) /\ asked c') /\ (forall q, reduces snap a q -> r = Val []).
  Proof.
    intros Bf Sf Sw Mf Mw Un Pn H E. pose proof (search_clean cfg snap fuel fuel) as Cl. assert (H' := H). destruct H' as (S & D & _).
    unfold run_command in E. apply bind_back in E. destruct E as (t & c1 & E1 & E).
    apply both_read in E1; [|exact D|].
    2:{ intros y [<-|[<-|[]]]; [apply Mf|apply Mw]. }
    destruct E1 as (na & nb & Xa & Xb & E1). apply bind_back in E1. destruct E1 as (t1 & c2 & E2 & E1).
    destruct (word_spelled _ _ _ _ _ _ _ S D Xa Mf H E2) as (-> & t1' & -> & L1).
    apply bind_back in E1. destruct E1 as (t2 & c2 & E3 & E1).
    destruct (word_spelled _ _ _ _ _ _ _ S D Xb Mw H E3) as (-> & t2' & -> & L2). injection E1 as <- <-. clear E2 E3.
    apply bind_back in E. destruct E as (t & c2 & E2 & E). assert (Pn2 : pinned c2 = false) by (rewrite <- Pn; apply (still_expand cfg fuel) in E2; apply E2).
    unfold c_expand in E2.
    apply (asked_search cfg snap fuel extra _ (fun t => exists l r, named_leaf (txt "forget") fg l /\ named_leaf w a r /\ paired l r t)) in E2; [|exact H| |].
    2:{ unfold ops_of. rewrite S. apply (oc_expand _ Cl). }
    2:{ intros s q s' G X. unfold ops_of in X. rewrite S in X. revert X. generalize fuel at 2. intros [|n] X; [discriminate|].
        destruct (pair_expanded _ _ _ _ _ _ _ (made_pair _ _) X) as (l' & s1 & r' & s2 & X1 & X2 & X3).
        destruct (leaf_expanded _ _ _ _ _ _ _ Sf L1 G X1) as (G1 & M1 & _). destruct (leaf_expanded _ _ _ _ _ _ _ Sw L2 G1 X2) as (G2 & M2 & _).
        apply (put_together _ (txt "forget") fg) in X3; [|apply Mf|exact M1|left; exists w, a; split; [apply Mw|exact M2]|exact G2|].
        2:{ intros v0 b0 L. destruct M2 as (? & -> & _), L as (? & [= <- <- <-] & _). exact Un. }
        destruct X3 as [G3 P]. split; [exact G3|]. exists l', r'. auto. }
    destruct E2 as (H2 & t' & -> & l & r' & L1' & L2' & P). apply bind_back in E. destruct E as (q & c3 & E2 & E).
    rewrite (pair_created _ _ _ P) in E2; [|intros; exact (leaf_created _ _ _ _ L1')|intros; exact (leaf_created _ _ _ _ L2')].
    cbn [obind] in E2. injection E2 as <- <-. destruct P as (x1 & f1 & b1 & ->).
    eapply call_by_pair in E; [|reflexivity|reflexivity]. destruct E as (n & x & c4 & P & K).
    destruct n as [|n]; [discriminate|]. cbn [calls snd] in P. unfold call_pair_step in P.
    apply bind_back in P. destruct P as (ty & c5 & E1' & P).
    apply (type_known fg CForget) in E1'; [|exact Bf|destruct L1' as (? & -> & _); reflexivity|exact H2]. destruct E1' as [-> ->].
    apply bind_back in P. destruct P as (dn & c5 & E2 & P). destruct L2' as (kd & -> & _). cbn [t_concept display] in E2.
    apply bind_back in E2. destruct E2 as (y & c6 & E2 & E3). apply catch_back in E2. destruct E2 as (w0 & -> & E2).
    apply bind_back in E2. destruct E2 as (uu & c7 & E4 & E2).
    assert (uu = Val tt /\ c7 = c2) as [-> ->] by (unfold need_delta in E4; rewrite Pn2 in E4; injection E4 as <- <-; auto). clear E4.
    apply bind_back in E2. destruct E2 as (uu & c7 & E4 & E2). unfold delete_reduction, c_read in E4.
    apply bind_back in E4. destruct E4 as (m & c8 & E5 & E4). apply lift_clean in E5; [|apply clean_read]. destruct E5 as (-> & m' & -> & R).
    assert (H2' := H2). destruct H2' as (S2 & D2 & _). rewrite S2, D2 in R.
    split.
    - intros Nr. rewrite (no_reduction_read _ _ _ _ Nr R) in E4. injection E4 as <- <-. destruct E2 as [-> ->]. injection E3 as <- <-. injection P as <- <-.
      destruct K as [-> ->]; [discriminate|]. auto.
    - intros q Rq. rewrite (reduction_read _ _ _ _ _ Rq R) in E4. apply bind_back in E4. destruct E4 as (i & c8 & E5 & E4).
      apply update_pending in E5. destruct E5 as (id & -> & _). injection E4 as <- <-. injection E2 as <- <-. injection E3 as <- <-. injection P as <- <-.
      destruct K as [-> _]; [discriminate|]. reflexivity.
  Qed.

  (** Asking for the name of a word. *)
  Lemma naming_run lb a w c r c' : built_in snap lb CLabel -> settled_symbol snap lb (txt "label_of") -> settled_symbol snap a w ->
    means snap (txt "label_of") lb -> means snap w a -> carries_label snap a w -> asked c ->
    run_command cfg fuel (spelled (Both (Word (txt "label_of")) (Word w))) c = Ok (r, c') -> r = Val (quoted w) /\ asked c'.
  Proof.
    intros Bf Sf Sw Mf Mw Ca H E. pose proof (search_clean cfg snap fuel fuel) as Cl. assert (H' := H). destruct H' as (S & D & _).
    unfold run_command in E. apply bind_back in E. destruct E as (t & c1 & E1 & E).
    apply both_read in E1; [|exact D|].
    2:{ intros y [<-|[<-|[]]]; [apply Mf|apply Mw]. }
    destruct E1 as (na & nb & Xa & Xb & E1). apply bind_back in E1. destruct E1 as (t1 & c2 & E2 & E1).
    destruct (word_spelled _ _ _ _ _ _ _ S D Xa Mf H E2) as (-> & t1' & -> & L1).
    apply bind_back in E1. destruct E1 as (t2 & c2 & E3 & E1).
    destruct (word_spelled _ _ _ _ _ _ _ S D Xb Mw H E3) as (-> & t2' & -> & L2). injection E1 as <- <-. clear E2 E3.
    apply bind_back in E. destruct E as (t & c2 & E2 & E). unfold c_expand in E2.
    apply (asked_search cfg snap fuel extra _ (fun t => exists x k l r fv bv, named_leaf (txt "label_of") lb l /\ named_leaf w a r /\ t = TBranch x k l r fv bv /\
      forall i, k = Some i -> exists p, i = Committed p /\ composed snap p lb a)) in E2; [|exact H| |].
    2:{ unfold ops_of. rewrite S. apply (oc_expand _ Cl). }
    2:{ intros s q s' G X. unfold ops_of in X. rewrite S in X. revert X. generalize fuel at 2. intros [|n] X; [discriminate|].
        destruct (pair_expanded _ _ _ _ _ _ _ (made_pair _ _) X) as (l' & s1 & r' & s2 & X1 & X2 & X3).
        destruct (leaf_expanded _ _ _ _ _ _ _ Sf L1 G X1) as (G1 & M1 & _). destruct (leaf_expanded _ _ _ _ _ _ _ Sw L2 G1 X2) as (G2 & M2 & _).
        apply (put_words_together _ (txt "label_of") lb w a) in X3; [|apply Mf|apply Mw|exact M1|exact M2|exact G2].
        destruct X3 as (G3 & x & k & fv & bv & -> & Q). split; [exact G3|]. exists x, k, l', r', fv, bv. auto. }
    destruct E2 as (H2 & t' & -> & x & k & l & r' & fv & bv & L1' & L2' & -> & Q). apply bind_back in E. destruct E as (q & c3 & E2 & E).
    assert (q = Val (TBranch x k l r' fv bv) /\ c3 = c2) as [-> ->].
    { cbn [create_variable_concepts] in E2. unfold cbind in E2. rewrite (leaf_created _ _ _ _ L1') in E2. cbn [obind] in E2.
      rewrite (leaf_created _ _ _ _ L2') in E2. injection E2 as <- <-. auto. }
    assert (H2' := H2). destruct H2' as (S2 & D2 & _).
    unfold call in E. eapply name_call in E; [| |reflexivity|].
    - destruct E as (-> & v & -> & V). destruct L2' as (kd & -> & _). cbn [t_concept] in V. rewrite S2, D2 in V.
      rewrite (OneName.label_of_committed snap UL cfg LC lab CI BL _ _ _ _ Ca V). auto.
    - intros i m Ti R. cbn [t_concept] in Ti. destruct (Q _ Ti) as (p & -> & (c0 & fv0 & bv0 & red & L' & Sp)). rewrite S2, D2 in R.
      apply (wide_back cfg snap _ (WidensSame _)) in R. destruct R as (o & L & ->). rewrite L in L'. injection L' as <-. cbn. unfold get_string. rewrite Sp. reflexivity.
    - destruct L1' as (kd & -> & _). exists (Committed lb). split; [reflexivity|]. rewrite S2, D2.
      apply concrete_read; exact Bf.
  Qed.
End Store.
