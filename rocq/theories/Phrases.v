(** Sequences of words: what is answered. *)
From Verif Require Import Nester NesterFacts CommandFacts Grouping.
From Verif Require Import Start Snapshot Search Context LexerSpec LexerFacts NesterSpec StoreSpec StoreInv NameSpec Names StoreFacts
  MapFacts AstSpec AstFacts RangeFacts History Steps SearchKeeps SearchCaches Questions Existence Wide Earned Repeat CacheLife
  Quiet Displays Matches Implications Asking Shapes Unruled Spelled Answers Replies Clean Keyed Flat Checks.
From Coq Require Import String List PeanoNat Bool Permutation Lia.
Import ListNotations.
Local Open Scope zia_scope.

(** ** Specification *)
(** Words one after the other, grouped to the right. *)
Fixpoint row (ws : list text) : phrase :=
  match ws with [] => Word [] | [w] => Word w | w :: ws => Both (Word w) (row ws) end.
Notation joined := Flat.joined.

(** ** Texts *)
Lemma same_length {A B} (R : A -> B -> Prop) l m : Forall2 R l m -> length l = length m.
Proof. induction 1; cbn; congruence. Qed.
Lemma joined_more w v ws : joined (w :: v :: ws) = w ++ c_space :: joined (v :: ws).
Proof. reflexivity. Qed.
Lemma joined_one ws : forall ws', Forall word ws -> Forall word ws' -> ws <> [] -> ws' <> [] -> joined ws = joined ws' -> ws = ws'.
Proof.
  induction ws as [|w ws IH]; intros [|w' ws'] H H' N N' E; try congruence. clear N N'.
  inversion H as [|? ? W R]; subst. inversion H' as [|? ? W' R']; subst.
  destruct ws as [|v ws], ws' as [|v' ws'].
  - cbn in E. congruence.
  - exfalso. rewrite joined_more in E. exact (word_unspaced _ _ _ W E).
  - exfalso. rewrite joined_more in E. exact (word_unspaced _ _ _ W' (eq_sym E)).
  - rewrite !joined_more in E. apply (word_split _ _ _ _ W W') in E. destruct E as [-> E].
    rewrite (IH (v' :: ws')) by (assumption || discriminate). reflexivity.
Qed.

(** ** Reading *)
Lemma both_read cfg fuel a b c r c' : c_delta c = delta_default -> proper (Both a b) ->
  ast_from_expression cfg fuel (spelled (Both a b)) c = Ok (r, c') ->
  exists na nb, spells (kind_of_symbol cfg fuel c) a na /\ spells (kind_of_symbol cfg fuel c) b nb /\
    cbind (ast_from_nested_syntax cfg fuel na) (fun ta =>
      cbind (ast_from_nested_syntax cfg fuel nb) (fun tb => cret (new_pair ta tb))) c = Ok (r, c').
Proof.
  intros D H E. unfold ast_from_expression, c_lex, c_nest in E.
  apply bind_back in E. destruct E as (ls & c2 & E1 & E).
  apply lift_clean in E1; [|apply clean_lex; intros t; apply clean_kind, D].
  destruct E1 as (-> & ls' & -> & L).
  pose proof (tokenisation_unique_lemma _ _ _ (lex_tokenisation_lemma _ _ _ L) (spelled_tokenisation _ H)) as V.
  assert (C : cats_ok (kind_of_symbol cfg fuel c) ls') by (intros l k; apply (lex_categories_lemma _ _ _ l k L)).
  apply bind_back in E. destruct E as (n & c2 & E2 & E).
  apply map_eq_app in V. destruct V as (la & l2 & -> & Va & V). apply map_eq_cons in V. destruct V as (y & lb & -> & Vy & Vb).
  destruct (items_read (kind_of_symbol cfg fuel c) a la) with (2 := Va) as (ia & Ia & Ta); [intros l k J; apply C, in_or_app; auto|].
  destruct (items_read (kind_of_symbol cfg fuel c) b lb) with (2 := Vb) as (ib & Ib & Tb);
    [intros l k J; apply C, in_or_app; right; right; exact J|].
  assert (Oy : tok_of y = []) by (unfold tok_of in *; destruct (lx_cat y); try discriminate Vy; reflexivity).
  assert (WB : well_bracketed (toks (la ++ y :: lb)) [ia; ib]).
  { split; [discriminate|]. split; [exact (nonempty_groups_app [ia] [ib] (item_nonempty _ _ _ Ia) (item_nonempty _ _ _ Ib))|].
    rewrite toks_app, toks_cons, Oy, Ta, Tb. cbn. rewrite app_nil_r. reflexivity. }
  destruct (spelled_node _ a ia Ia) as (_ & na & Hn & Sa). destruct (spelled_node _ b ib Ib) as [Sb _].
  destruct (fold_heads [item_node ib] (item_node ia)) as (s & Eh); [discriminate|].
  assert (Eb : build [ia; ib] = NParent [na; item_node ib] s) by (rewrite Hn in Eh; exact Eh).
  unfold clift in E2. rewrite (nest_complete _ _ WB), Eb in E2. injection E2 as <- <-. clear Eb.
  exists na, (item_node ib). split; [exact Sa|]. split; [exact Sb|].
  cbn [app syntax_list_for_nested_syntax] in E.
  unfold cbind in *. destruct (ast_from_nested_syntax cfg fuel na c) as [[[ta|e] c2]|e|p|]; cbn [obind] in E |- *; try exact E.
  destruct (ast_from_nested_syntax cfg fuel (item_node ib) c2) as [[[tb|e] c3]|e|p|]; cbn [obind] in E |- *; try exact E.
Qed.

Section Store.
  Variables (cfg : config) (snap : snapshot) (fuel : nat).
  Hypothesis F : fair cfg.
  Hypothesis N : self_numbered snap.
  Hypothesis LC : compositions_are_listed snap.
  Hypothesis LR : listed_compositions_are_real snap.
  Hypothesis UL : forall a b, built_in snap a CLabel -> built_in snap b CLabel -> a = b.
  Variable lab : nat.
  Hypothesis CI : concrete_concept_id cfg snap delta_default CLabel = Ok (Some (Committed lab)).
  Hypothesis BL : built_in snap lab CLabel.
  Hypothesis BI : forall cc c, concrete_concept_id cfg snap delta_default cc = Ok (Some c) -> is_built_in snap c cc.
  Hypothesis ON : operators_named snap.
  Hypothesis HK : hands_keyed snap.
  (** The words and their symbols. *)
  Variable sym : text -> nat -> Prop.
  Hypothesis SyW : forall w k, sym w k -> word w.
  Hypothesis SyS : forall w k, sym w k -> settled_symbol snap k w.
  Hypothesis SyE : forall w k, sym w k -> exists z v, ends snap k z v /\ sym v z.
  Hypothesis SyR : forall w k q, sym w k -> reduces snap k q -> exists v, sym v q.
  Hypothesis SyI : forall w k k', sym w k -> sym w k' -> k = k'.
  Hypothesis SyN : forall w w' k, sym w k -> sym w' k -> w = w'.
  (** They are not commands or relations, no rule is about them, and no two of them are a concept. *)
  Hypothesis SyT : forall w k cc, sym w k -> built_in snap k cc -> ~ In cc [CLet; CForget; CLabel; CReduction; CGreaterThan].
  Hypothesis SyP : forall w k p, sym w k -> mentions snap p k -> ~ pattern snap p.
  Hypothesis SyC : forall w v k l, sym w k -> sym v l -> uncomposed snap k l.
  Hypothesis AsW : forall a, built_in snap a CAssociativity -> sym (txt "assoc") a.
  Hypothesis UN : forall k, unruled snap k.
  Notation ops n := (search cfg snap fuel n).
  Notation leaf_of := (leaf_of cfg snap fuel).
  Notation own := (new_env delta_default []).

  Definition one (k : nat) (t : tree) : Prop := exists w kd, sym w k /\ t = TLeaf w (Some (Committed k)) kd /\ kd <> LVariable.
  Inductive row_tree : list nat -> tree -> Prop :=
  | RowOne k t : one k t -> row_tree [k] t
  | RowMore k ks l r ws : one k l -> row_tree ks r -> Forall2 sym ws (k :: ks) ->
      row_tree (k :: ks) (TBranch (Some (joined ws)) None l r [] []).
  Definition right_row (ks : list nat) (r : rresult) : Prop :=
    match r with
    | None => Forall (fun k => forall q, ~ reduces snap k q) ks
    | Some (t, _) => exists ks', Forall2 (stepped snap) ks ks' /\ row_tree ks' t
    end.
  (** What may be remembered. *)
  Definition right_words (x : text) (r : rresult) : Prop :=
    forall ws ks, Forall2 sym ws ks -> le 2 (length ws) -> x = joined ws -> right_row ks r.
  Definition words_text (x : text) : Prop := exists ws ks, Forall2 sym ws ks /\ le 2 (length ws) /\ x = joined ws.
  Variable extra : text -> rresult -> Prop.
  Hypothesis ExOut : forall x r, extra x r -> right_words x r.
  Hypothesis ExIn : forall x r, words_text x -> right_words x r -> extra x r.
  Notation good := (good cfg snap fuel extra).

  Lemma sym_elementary w k : sym w k -> elementary snap k.
  Proof. intros H. apply (SyS _ _ H). Qed.
  Lemma one_sym k t : one k t -> exists w, sym w k /\ display t = w.
  Proof. intros (w & kd & S & -> & _). exists w. auto. Qed.
  Lemma one_leaf w k t : sym w k -> leaf_of k t -> one k t.
  Proof.
    intros S L. destruct (settled_leaf cfg snap fuel LC LR UL lab CI BL _ _ _ (SyS _ _ S) L) as (kd & -> & K). exists w, kd. auto.
  Qed.
  Lemma words_one ws ws' ks : Forall2 sym ws ks -> Forall2 sym ws' ks -> ws = ws'.
  Proof.
    intros H. revert ws'. induction H as [|w k ws ks S _ IH]; intros ws' H'; inversion H' as [|w' ? ws'' ? S' R]; subst; [reflexivity|].
    rewrite (SyN _ _ _ S S'), (IH _ R). reflexivity.
  Qed.
  Lemma ids_one ws ks ks' : Forall2 sym ws ks -> Forall2 sym ws ks' -> ks = ks'.
  Proof.
    intros H. revert ks'. induction H as [|w k ws ks S _ IH]; intros ws' H'; inversion H' as [|w' ? ws'' ? S' R]; subst; [reflexivity|].
    rewrite (SyI _ _ _ S S'), (IH _ R). reflexivity.
  Qed.
  Lemma all_words ws ks : Forall2 sym ws ks -> Forall word ws.
  Proof. induction 1; constructor; eauto. Qed.
  Lemma row_words ks t : row_tree ks t -> exists ws, Forall2 sym ws ks /\ display t = joined ws.
  Proof.
    intros [k u H|k ks' l r ws H R S]; [|exists ws; auto].
    destruct (one_sym _ _ H) as (w & S & D). exists [w]. split; [constructor; [exact S|constructor]|exact D].
  Qed.
  Lemma row_some ks t : row_tree ks t -> ks <> [].
  Proof. intros []; discriminate. Qed.
  Lemma row_vars ks t : row_tree ks t -> match t with TLeaf _ _ k => k <> LVariable | TBranch _ _ _ _ fv bv => fv = [] /\ bv = [] end.
  Proof. intros [k u (w & kd & _ & -> & K)|]; [exact K|auto]. Qed.
  Lemma one_vars k t : one k t -> exists w kd, t = TLeaf w (Some (Committed k)) kd /\ kd <> LVariable.
  Proof. intros (w & kd & _ & -> & K). eauto. Qed.
  Lemma row_branch k ks l r ws : one k l -> row_tree ks r -> Forall2 sym ws (k :: ks) ->
    row_tree (k :: ks) (branch (Some (joined ws)) None l r).
  Proof.
    intros O R S. replace (branch (Some (joined ws)) None l r) with (TBranch (Some (joined ws)) None l r [] []); [now constructor|].
    destruct (one_vars _ _ O) as (w & kd & -> & K). pose proof (row_vars _ _ R) as V.
    unfold branch, pair_vars, right_vars. destruct r as [x c kr|x c rl rr fv bv].
    - destruct kd, kr; try congruence; reflexivity.
    - destruct V as [-> ->]. destruct kd; try congruence; reflexivity.
  Qed.

  (** *** No two of the words are a concept *)
  Lemma row_concept ks t : row_tree ks t -> t_concept t = None \/ exists k w, ks = [k] /\ sym w k /\ t_concept t = Some (Committed k).
  Proof. intros [k u (w & kd & S & -> & K)|]; [right; exists k, w; auto|left; reflexivity]. Qed.
  Lemma unlisted e w v k b m : widens delta_default (e_delta e) -> sym w k -> sym v b -> known cfg snap e (Committed k) m ->
    m_find_as_hand m (Committed b) HLeft = None.
  Proof.
    intros W Sw Sv R. unfold known in R. apply (wide_back cfg snap _ W) in R. destruct R as (c & L & ->).
    cbn [m_find_as_hand mixed_of_committed ch_left aget]. unfold find_as_hand, hand_of.
    destruct (aget Nat.eqb b (lefthand_of c)) as [p|] eqn:A; [|reflexivity]. exfalso. apply (SyC _ _ _ _ Sw Sv p), LR. left. exists c. auto.
  Qed.
  Lemma row_alone k ks l r s c s' : one k l -> row_tree ks r -> composition_concept cfg snap own l r s = Ok (c, s') -> c = None /\ s' = s.
  Proof.
    intros (w & kd & Sw & -> & _) R E. unfold composition_concept in E. cbn [t_concept] in E.
    destruct (row_concept _ _ R) as [Q|(b & v & -> & Sv & Q)]; rewrite Q in E; [injection E as <- <-; auto|].
    apply sb in E. destruct E as (m & s1 & Rm & E). apply read_ok in Rm. destruct Rm as [Rm ->]. injection E as <- <-. split; [|reflexivity].
    exact (unlisted own _ _ _ _ _ (WidensSame _) Sw Sv Rm).
  Qed.
  Lemma row_inert e ks t : simple snap e -> row_tree ks t -> inert cfg snap e t.
  Proof.
    intros Se. induction 1 as [k t (w & kd & S & -> & K)|k ks l r ws O R IH S].
    - apply InertLeaf. apply (closed_leaf cfg snap); [exact Se|]. exact (sym_elementary _ _ S).
    - destruct O as (w & kd & Sw & -> & K). apply InertPair; [|exact IH|].
      + apply InertLeaf. apply (closed_leaf cfg snap); [exact Se|]. exact (sym_elementary _ _ Sw).
      + intros c. unfold pair_concept. cbn [t_concept].
        destruct (row_concept _ _ R) as [Q|(b & v & -> & Sv & Q)]; rewrite Q; [auto|].
        intros (m & Rm & ->). exact (unlisted e _ _ _ _ _ (proj1 Se) Sw Sv Rm).
  Qed.

  (** *** No rule applies *)
  Definition about_some (g : cid) : Prop := exists p w k, g = Committed p /\ sym w k /\ mentions snap p k.
  Lemma row_generalisations ks t : row_tree ks t -> forall s gs s', find_generalisations cfg snap own t s = Ok (gs, s') ->
    (forall g, In g gs -> about_some g) /\ s' = s.
  Proof.
    assert (HL : forall k c g, lookup snap k = Some c -> In g (hand_of c HLeft) -> composed snap (snd g) k (fst g)).
    { intros k c [j p] L J. apply LR. left. exists c. split; [exact L|]. exact (in_keyed _ _ _ (HK _ _ HLeft L) J). }
    assert (HR : forall k c g, lookup snap k = Some c -> In g (hand_of c HRight) -> composed snap (snd g) (fst g) k).
    { intros k c [j p] L J. apply LR. right. exists c. split; [exact L|]. exact (in_keyed _ _ _ (HK _ _ HRight L) J). }
    induction 1 as [k t (w & kd & S & -> & K)|k ks l r ws (w & kd & Sw & -> & K) R IH S]; intros s gs s' E; cbn [find_generalisations] in E.
    - injection E as <- <-. split; [intros g []|reflexivity].
    - apply sb in E. destruct E as (acc & s1 & E1 & E).
      apply (compositions_added cfg snap F _ _ about_some) in E1; [| | |intros g []].
      2:{ intros i c g [[= ->]|[]] L J. exists (snd g), w, i. split; [reflexivity|]. split; [exact Sw|]. exact (MentionsLeft snap _ _ _ (HL _ _ _ L J)). }
      2:{ intros g [<-|[]]. eauto. }
      destruct E1 as [A1 ->]. apply sb in E. destruct E as (acc2 & s1 & E1 & E).
      apply (compositions_added cfg snap F _ _ about_some) in E1; [| | |exact A1].
      2:{ intros i c g J L Jg. unfold concept_list in J. destruct (row_concept _ _ R) as [Q|(b & v & -> & Sv & Q)]; rewrite Q in J; [destruct J|].
          destruct J as [[= ->]|[]]. exists (snd g), v, i. split; [reflexivity|]. split; [exact Sv|]. exact (MentionsRight snap _ _ _ (HR _ _ _ L Jg)). }
      2:{ intros g J. unfold concept_list in J. destruct (row_concept _ _ R) as [Q|(b & v & -> & Sv & Q)]; rewrite Q in J; [destruct J|].
          destruct J as [<-|[]]. eauto. }
      destruct E1 as [A2 ->].
      apply sb in E. destruct E as (gl & s1 & [= <- <-] & E). cbn [add_compositions] in E.
      apply sb in E. destruct E as (ac3 & s1 & [= <- <-] & E). apply sb in E. destruct E as (gr & s1 & Eg & E).
      destruct (IH _ _ _ Eg) as [Ag ->].
      apply (compositions_added cfg snap F _ _ about_some) in E; [exact E| | |exact A2].
      + intros i c g J L Jg. destruct (Ag _ J) as (p & v & b & [= ->] & Sv & M). exists (snd g), v, b. split; [reflexivity|].
        split; [exact Sv|]. exact (MentionsInRight snap _ _ _ _ (HR _ _ _ L Jg) M).
      + intros g J. destruct (Ag _ J) as (p & _ & _ & -> & _). eauto.
  Qed.
  Lemma mention_composed p k : mentions snap p k -> exists x y, composed snap p x y.
  Proof. intros []; eauto. Qed.
  Lemma row_unruled n h t g s r s' : about_some g -> t_concept t = None ->
    try_rule cfg snap fuel (ops n) own h t g s = Ok (r, s') -> r = None /\ s' = s.
  Proof.
    intros (p & w & k & -> & Sw & M) T E. unfold try_rule in E. apply sb in E.
    destruct E as (vm & s1 & C & E).
    assert (Q : (vm = None \/ vm = Some []) /\ s1 = s).
    { destruct t as [x c kd|x c tl tr fv bv]; cbn [check_generalisation] in C; apply sb in C; destruct C as (f & s2 & Ef & C);
      unfold is_free_variable in Ef; apply sb in Ef; destruct Ef as (m & s3 & R & [= Ef <-]); apply read_ok in R; destruct R as [R ->];
      (assert (f = false) as ->; [|cbn [negb] in C; injection C as <- <-; auto]).
      all: rewrite <- Ef; unfold known in R; apply (wide_back cfg snap _ (WidensSame _)) in R; destruct R as (c0 & L & ->);
        cbn [m_free mixed_of_committed]; unfold free_variable;
        destruct (mention_composed _ _ M) as (x0 & y0 & c' & fv0 & bv0 & red & L' & Sp); rewrite L in L'; injection L' as <-; rewrite Sp;
        destruct fv0 as [|v0 fv0]; [reflexivity|]; exfalso; apply (SyP _ _ _ Sw M); exists c0, x0, y0, v0, fv0, bv0, red; auto. }
    destruct Q as [[->| ->] ->]; injection E as <- <-; auto.
  Qed.
  Lemma row_no_rules n h t gs : (forall g, In g gs -> about_some g) -> t_concept t = None -> forall s r s',
    find_map (try_rule cfg snap fuel (ops n) own h t) gs s = Ok (r, s') -> r = None /\ s' = s.
  Proof.
    intros A T. induction gs as [|g gs IH]; intros s r s' E; cbn [find_map] in E; [injection E as <- <-; auto|].
    unfold or_else in E. apply sb in E. destruct E as (x & s1 & E1 & E).
    destruct (row_unruled _ _ _ _ _ _ _ (A g (or_introl eq_refl)) T E1) as [-> ->].
    exact (IH (fun g J => A g (or_intror J)) _ _ _ E).
  Qed.

  (** *** Rows are put together *)
  Definition rights (n : nat) : Prop := forall k t s a s', one k t -> good s -> o_assoc (ops n) own t s = Ok (a, s') -> good s' /\ a = ARight.
  Lemma joined_blank w ws : word w -> existsb is_whitespace (joined (w :: ws)) = match ws with [] => false | _ => true end.
  Proof.
    intros W. destruct ws as [|v ws]; [exact (word_blank _ W)|]. rewrite joined_more, existsb_app. cbn [existsb].
    apply orb_true_iff. right. reflexivity.
  Qed.
  Lemma row_joined n k ks l r s x s' : rights n -> one k l -> row_tree ks r -> good s ->
    display_joint (ops n) own l r s = Ok (x, s') -> good s' /\ exists ws, Forall2 sym ws (k :: ks) /\ x = joined ws.
  Proof.
    intros A O R G E. pose proof O as (w & kd & Sw & -> & _). unfold display_joint in E. cbn [display] in E.
    rewrite (word_blank _ (SyW _ _ Sw)) in E. apply sb in E. destruct E as (y & s1 & [= <- <-] & E).
    destruct (row_words _ _ R) as (vs & Sv & D). rewrite D in E.
    destruct Sv as [|v k' vs' ks' Sv Svs]; [destruct (row_some _ _ R eq_refl)|].
    rewrite (joined_blank _ _ (SyW _ _ Sv)) in E. apply sb in E. destruct E as (y & s1 & E1 & [= <- <-]).
    assert (Q : good s1 /\ y = joined (v :: vs')).
    { inversion R as [k1 u O1|k1 ks1 rl rr ws1 O1 R1 S1]; subst.
      - inversion Svs; subst. injection E1 as <- <-. split; [exact G|reflexivity].
      - destruct vs' as [|v' vs'].
        { inversion Svs; subst. destruct (row_some _ _ R1 eq_refl). }
        cbn [t_exp] in E1. apply sb in E1. destruct E1 as (a & s2 & E1 & [= <- <-]). destruct (A _ _ _ _ _ O1 G E1) as [G1 ->].
        split; [exact G1|]. unfold display_joint_right. destruct (one_sym _ _ O1) as (w1 & Sw1 & ->).
        destruct (row_words _ _ R1) as (vs1 & Sv1 & ->). rewrite (SyN _ _ _ Sw1 Sv), (words_one _ _ _ Sv1 Svs). reflexivity. }
    destruct Q as [G1 ->]. split; [exact G1|]. exists (w :: v :: vs'). split; [constructor; [exact Sw|constructor; assumption]|reflexivity].
  Qed.
  Lemma row_contracted n k ks l r s t s' : rights n -> one k l -> row_tree ks r -> good s ->
    contract_pair cfg snap fuel (ops n) own l r s = Ok (t, s') -> good s' /\ row_tree (k :: ks) t.
  Proof.
    intros A O R G E. unfold contract_pair in E. apply sb in E. destruct E as (c & s1 & C & E).
    destruct (row_alone _ _ _ _ _ _ _ O R C) as [-> ->]. apply sb in E. destruct E as (j & s1 & E1 & [= <- <-]).
    unfold smap in E1. apply sb in E1. destruct E1 as (x & s2 & E1 & [= <- <-]).
    destruct (row_joined _ _ _ _ _ _ _ _ A O R G E1) as (G1 & ws & S & ->). split; [exact G1|]. exact (row_branch _ _ _ _ _ O R S).
  Qed.
  Lemma row_combined n k ks l r s t s' : rights n -> one k l -> row_tree ks r -> good s ->
    combine_ast cfg snap (ops n) own l r s = Ok (t, s') -> good s' /\ row_tree (k :: ks) t.
  Proof.
    intros A O R G E. unfold combine_ast in E. apply sb in E. destruct E as (c & s1 & C & E).
    destruct (row_alone _ _ _ _ _ _ _ O R C) as [-> ->]. apply sb in E. destruct E as (j & s1 & E1 & [= <- <-]).
    unfold join in E1. apply sb in E1. destruct E1 as (x & s2 & E1 & [= <- <-]).
    destruct (row_joined _ _ _ _ _ _ _ _ A O R G E1) as (G1 & ws & S & ->). split; [exact G1|]. exact (row_branch _ _ _ _ _ O R S).
  Qed.

  (** *** Rows are evaluated *)
  Lemma one_reduced n k t s r s' : one k t -> good s -> o_reduce (ops n) own t s = Ok (r, s') ->
    good s' /\ match r with None => forall q, ~ reduces snap k q | Some (u, _) => exists q, reduces snap k q /\ one q u end.
  Proof.
    intros (w & kd & S & -> & _) G E. destruct (SyE _ _ S) as (z & v & En & _).
    destruct (own_reduce_leaf cfg snap fuel F N LC LR UL lab CI BL BI ON extra n _ _ _ _ _ _ _ _ En G E) as [G1 R]. split; [exact G1|].
    destruct r as [[u why]|]; [|exact R]. destruct R as (q & Rq & L). exists q. split; [exact Rq|].
    destruct (SyR _ _ _ S Rq) as (v' & S'). exact (one_leaf _ _ _ S' L).
  Qed.
  Lemma stepped_same k : (forall q, ~ reduces snap k q) -> stepped snap k k.
  Proof. intros H. right. auto. Qed.
  Lemma all_same ks : Forall (fun k => forall q, ~ reduces snap k q) ks -> Forall2 (stepped snap) ks ks.
  Proof. induction 1; constructor; [now apply stepped_same|assumption]. Qed.
  Lemma one_type k t s ty s' : one k t -> concrete_type_of_ast cfg snap own t s = Ok (ty, s') ->
    s' = s /\ forall cc, ty = Some cc -> built_in snap k cc.
  Proof.
    intros (w & kd & S & -> & _) E. unfold concrete_type_of_ast, concrete_type in E. cbn [t_concept] in E.
    apply lifted in E. destruct E as [E ->]. split; [reflexivity|]. intros cc ->. cbn [new_env e_delta] in E.
    apply (wide_type cfg snap _ (WidensSame _)) in E. destruct E as (n & [= <-] & B). exact B.
  Qed.
  Lemma row_text ws ks r : Forall2 sym ws ks -> le 2 (length ws) -> right_row ks r -> extra (joined ws) r.
  Proof.
    intros S L Q. apply ExIn; [exists ws, ks; auto|]. intros ws' ks' S' L' E.
    apply joined_one in E; [| exact (all_words _ _ S)|exact (all_words _ _ S')|destruct ws; cbn in L; [lia|discriminate]|destruct ws'; cbn in L'; [lia|discriminate]].
    subst ws'. rewrite (ids_one _ _ _ S' S). exact Q.
  Qed.
  Lemma rows_evaluated n : rights n /\ forall ks t s r s', row_tree ks t -> good s -> o_reduce (ops n) own t s = Ok (r, s') -> good s' /\ right_row ks r.
  Proof.
    induction n as [|n [IHa IHr]]; [split; [intros ? ? ? ? ? ? ? E|intros ? ? ? ? ? ? ? E]; discriminate E|]. split.
    - intros k t s a s' O G E. cbn [search step o_assoc] in E. unfold get_associativity in E.
      apply sb in E. destruct E as (c & s1 & E1 & E). apply lifted in E1. destruct E1 as [Ca ->].
      destruct c as [c|]; [|injection E as <- <-; auto]. destruct (BI _ _ Ca) as (as' & -> & Bk). pose proof (AsW _ Bk) as Sk.
      apply sb in E. destruct E as (at1 & s1 & E1 & E).
      destruct (own_tree cfg snap fuel F N LR n as' s at1 s1 (sym_elementary _ _ Sk) (proj1 G) E1) as (Lk & Q1 & U1).
      pose proof (good_untouched _ _ _ _ _ _ G Q1 U1) as G1. pose proof (one_leaf _ _ _ Sk Lk) as Ok1.
      apply sb in E. destruct E as (t2 & s2 & E2 & E). destruct (row_combined _ _ _ _ _ _ _ _ IHa Ok1 (RowOne _ _ O) G1 E2) as [G2 R2].
      apply sb in E. destruct E as (r & s3 & E3 & E). destruct (IHr _ _ _ _ _ R2 G2 E3) as [G3 Q3].
      apply sb in E. destruct E as (ty & s4 & E4 & [= <- <-]).
      assert (ty = None /\ s4 = s3) as [-> ->]; [|auto]. destruct r as [[u y]|]; [|injection E4 as <- <-; auto].
      destruct Q3 as (ks' & St & Ru). inversion St as [|? k1 ? ks1 _ St1]; subst. inversion St1 as [|? k2 ? ks2 _ St2]; subst. inversion St2; subst.
      unfold concrete_type_of_ast in E4. inversion Ru; subst. cbn [t_concept] in E4. injection E4 as <- <-. auto.
    - intros ks t s rr s' R G E. destruct R as [k t O|k ks l r ws O R S].
      { destruct (one_reduced _ _ _ _ _ _ O G E) as [G1 Q]. split; [exact G1|]. destruct rr as [[u why]|]; [|constructor; [exact Q|constructor]].
        destruct Q as (q & Rq & Oq). exists [q]. split; [constructor; [left; exact Rq|constructor]|exact (RowOne _ _ Oq)]. }
      assert (Lw : le 2 (length ws)).
      { apply same_length in S. cbn in S. pose proof (row_some _ _ R). destruct ks; [congruence|]. cbn in S. lia. }
      cbn [search step o_reduce] in E. unfold reduce in E.
      apply sb in E. destruct E as (cached & s1 & C & E). assert (s1 = s) as -> by (now injection C). destruct cached as [q|].
      { injection E as <- <-. split; [exact G|]. exact (ExOut _ _ (from_cache _ _ _ _ _ _ _ _ _ _ G C) _ _ S Lw eq_refl). }
      clear C. cbn [t_concept t_exp opt_then] in E. apply sb in E. destruct E as (cc' & s1 & [= <- <-] & E).
      apply sb in E. destruct E as (q & s1 & Er & E). apply sb in E. destruct E as ([] & s2 & Ei & E). injection E as <- <-.
      assert (Q : good s1 /\ right_row (k :: ks) q).
      { unfold or_else at 1 in Er. apply sb in Er. destruct Er as (o1 & s3 & [= <- <-] & Er).
        unfold reduce_pair, or_else in Er. apply sb in Er. destruct Er as (o1 & s3 & Ex & Er).
        assert (o1 = None /\ s3 = s) as [-> ->].
        { destruct R as [k1 u (w1 & kd1 & S1 & -> & _)|k1 ks1 rl rr ws1 O1 R1 S1]; cbn [t_exp opt_then] in Ex; [injection Ex as <- <-; auto|].
          unfold reduce_by_expanded_right_branch in Ex. apply sb in Ex. destruct Ex as (ty & s4 & Et & Ex).
          destruct (one_type _ _ _ _ _ O1 Et) as [-> T]. destruct (one_sym _ _ O1) as (w1 & Sw1 & _).
          destruct ty as [cc|]; [|injection Ex as <- <-; auto]. pose proof (SyT _ _ _ Sw1 (T _ eq_refl)) as X.
          destruct cc; try (injection Ex as <- <-; auto); exfalso; apply X; cbn; auto 9. }
        apply sb in Er. destruct Er as (o1 & s3 & Ex' & Er).
        assert (o1 = None /\ s3 = s) as [-> ->].
        { destruct (one_vars _ _ O) as (w0 & kd & -> & _). cbn [t_exp opt_then] in Ex'. injection Ex' as <- <-. auto. }
        unfold recursively_reduce_pair in Er. apply sb in Er. destruct Er as (lr & s3 & E1 & Er).
        destruct (one_reduced _ _ _ _ _ _ O G E1) as [G3 R1].
        apply sb in Er. destruct Er as (br & s4 & E2 & Er). destruct (IHr _ _ _ _ _ R G3 E2) as [G4 R2].
        apply sb in Er. destruct Er as (h & s5 & E3 & Er).
        pose proof (new_red_good cfg snap fuel F N LC LR UL lab CI BL BI ON extra _ _ _ G4 E3) as G5.
        assert (K : forall k' ks' l2 r2, stepped snap k k' -> Forall2 (stepped snap) ks ks' -> one k' l2 -> row_tree ks' r2 -> forall p s'' rr,
          (t <~ contract_pair cfg snap fuel (ops n) own l2 r2 ;; p <~ partial_reason cfg p ;; sret (Some (t, p)))%search s5 = Ok (rr, s'') ->
          good s'' /\ right_row (k :: ks) rr).
        { intros k' ks' l2 r2 Sk Sks Ol Rr p s'' q' Ek. apply sb in Ek. destruct Ek as (t2 & s8 & E4 & Ek).
          destruct (row_contracted _ _ _ _ _ _ _ _ IHa Ol Rr G5 E4) as [G8 Q2].
          apply sb in Ek. destruct Ek as (p' & s9 & E5 & [= <- <-]). split; [exact (partial_good cfg snap fuel F extra _ _ _ _ G8 E5)|].
          exists (k' :: ks'). split; [constructor; assumption|exact Q2]. }
        assert (M : forall t', (match t_concept t' with Some c => ml_get (e_mask own) c | None => None end) = None).
        { intros t'. destruct (t_concept t'); reflexivity. }
        rewrite !M in Er.
        destruct lr as [[lt lwhy]|], br as [[rt' rwhy]|].
        + destruct R1 as (k' & Rk & Ok'), R2 as (ks' & Sks & Rks). exact (K _ _ _ _ (or_introl Rk) Sks Ok' Rks _ _ _ Er).
        + destruct R1 as (k' & Rk & Ok'). exact (K _ _ _ _ (or_introl Rk) (all_same _ R2) Ok' R _ _ _ Er).
        + destruct R2 as (ks' & Sks & Rks). exact (K _ _ _ _ (stepped_same _ R1) Sks O Rks _ _ _ Er).
        + apply sb in Er. destruct Er as (t2 & s6 & E4 & Er).
          destruct (row_contracted _ _ _ _ _ _ _ _ IHa O R G5 E4) as [G6 P].
          apply sb in Er. destruct Er as (gs & s7 & E5 & Er). destruct (row_generalisations _ _ P _ _ _ E5) as [A ->].
          apply sb in Er. destruct Er as (gs' & s7 & E6 & Er). destruct (shuffle_good cfg snap fuel F extra _ _ _ _ G6 E6) as [G7 Sh].
          assert (T2 : t_concept t2 = None).
          { destruct (row_concept _ _ P) as [T2|(k0 & w0 & [= _ ->] & _)]; [exact T2|destruct (row_some _ _ R eq_refl)]. }
          destruct (row_no_rules _ _ _ gs' (fun g J => A g (Sh g J)) T2 _ _ _ Er) as [-> ->]. split; [exact G7|constructor; assumption]. }
      destruct Q as [G1 Q]. split; [|exact Q]. exact (kept_answer _ _ _ _ _ _ _ _ _ _ _ eq_refl G1 (row_text _ _ _ S Lw Q) Ei).
  Qed.

  (** *** To the end *)
  Definition ended (k z : nat) : Prop := exists v, ends snap k z v /\ sym v z.
  Lemma ended_here w k : sym w k -> (forall q, ~ reduces snap k q) -> ended k k.
  Proof.
    intros S H. destruct (SyE _ _ S) as (z & v & En & Sv). exists v.
    destruct En as [z w' Pz Nr|z cc w' B Sz|k w' q z v Pz R En]; [split; [now constructor|exact Sv]|split; [econstructor; eassumption|exact Sv]|destruct (H _ R)].
  Qed.
  Lemma ended_next w k k' z : sym w k -> stepped snap k k' -> ended k' z -> ended k z.
  Proof.
    intros S [R|[-> _]] H; [|exact H]. destruct H as (v & En & Sv). exists v. split; [|exact Sv].
    destruct (SyE _ _ S) as (z' & v' & En' & _).
    destruct En' as [z0 w' Pz Nr|z0 cc w' B Sz|k w' q z0 v0 Pz R' En']; [destruct (Nr _ R)|destruct (built_still _ _ _ _ B R)|].
    exact (EndsLater snap _ _ _ _ _ Pz R En).
  Qed.
  Lemma ended_on k z z' : ended k z -> ended z z' -> ended k z'.
  Proof.
    intros (v & En & Sv) (v' & En' & Sv'). pose proof (proj2 (ends_settled snap _ _ _ En)) as Nr.
    destruct En' as [z0 w' Pz _|z0 cc w' B Sz|k0 w' q z0 v0 Pz R' En']; [exists v; auto|exists v; auto|destruct (Nr _ R')].
  Qed.
  Lemma rows_sym ks t : row_tree ks t -> Forall (fun k => exists w, sym w k) ks.
  Proof.
    intros R. destruct (row_words _ _ R) as (ws & S & _). clear R. induction S; constructor; eauto.
  Qed.
  Lemma all_next ks : Forall (fun k => exists w, sym w k) ks -> forall ks' zs, Forall2 (stepped snap) ks ks' -> Forall2 ended ks' zs -> Forall2 ended ks zs.
  Proof.
    induction 1 as [|k ks (w & S) _ IH]; intros ks' zs H H'; inversion H; subst; inversion H'; subst; constructor; eauto.
    eapply ended_next; eassumption.
  Qed.
  Lemma all_on ks : forall zs zs', Forall2 ended ks zs -> Forall2 ended zs zs' -> Forall2 ended ks zs'.
  Proof.
    induction ks as [|k ks IH]; intros zs zs' H H'; inversion H; subst; inversion H'; subst; constructor; eauto. eapply ended_on; eassumption.
  Qed.
  Lemma row_normal n : forall ks t why s r why' s', row_tree ks t -> good s ->
    o_nf (ops n) own t why s = Ok ((r, why'), s') -> good s' /\ exists zs, row_tree zs r /\ Forall2 ended ks zs.
  Proof.
    induction n as [|n IH]; intros ks t why s r why' s' R G E; [discriminate|]. pose proof (rows_sym _ _ R) as Sy.
    cbn [search step o_nf] in E. unfold normal_form in E. apply sb in E. destruct E as (rr & s1 & Er & E).
    destruct (proj2 (rows_evaluated n) _ _ _ _ _ R G Er) as [G1 Q]. destruct rr as [[u reason]|].
    - destruct Q as (ks' & St & Ru). destruct (IH _ _ _ _ _ _ _ Ru G1 E) as (G2 & zs & Rz & En). split; [exact G2|].
      exists zs. split; [exact Rz|]. exact (all_next _ Sy _ _ St En).
    - injection E as <- _ <-. split; [exact G1|]. exists ks. split; [exact R|]. clear R Er IH G G1.
      induction Q as [|k ks Hk _ IHq]; [constructor|]. inversion Sy as [|? ? (w & S) Sy']; subst. constructor; [exact (ended_here _ _ S Hk)|exact (IHq Sy')].
  Qed.
  (** *** The command *)
  Notation asked := (asked cfg snap fuel extra).
  Lemma c_type k t c r c' : t_concept t = None \/ one k t -> asked c -> c_concrete_type_of cfg t c = Ok (r, c') ->
    c' = c /\ exists ty, r = Val ty /\ forall cc, ty = Some cc -> exists w, sym w k /\ built_in snap k cc.
  Proof.
    intros O H E. unfold c_concrete_type_of, c_concrete_type in E. destruct O as [T|(w & kd & S & -> & _)].
    - rewrite T in E. injection E as <- <-. split; [reflexivity|]. exists None. split; [reflexivity|]. discriminate.
    - cbn [t_concept] in E. apply lift_clean in E; [|apply clean_type]. destruct E as (-> & ty & -> & T). split; [reflexivity|].
      exists ty. split; [reflexivity|]. intros cc ->. destruct H as (Sn & D & _). rewrite Sn, D in T.
      apply (wide_type cfg snap _ (WidensSame _)) in T. destruct T as (n & [= <-] & B). eauto.
  Qed.
  Lemma row_called n : forall k ks l r c x c', one k l -> row_tree ks r -> asked c ->
    snd (calls cfg fuel n) l r c = Ok (x, c') -> asked c' /\ x = Fail CannotReduceFurther.
  Proof.
    induction n as [|n IH]; intros k ks l r c x c' O R H E; [discriminate|]. cbn [calls snd] in E. unfold call_pair_step in E.
    pose proof (search_clean cfg snap fuel fuel) as Cl.
    apply bind_back in E. destruct E as (ty & c1 & E1 & E). destruct (c_type _ _ _ _ _ (or_intror O) H E1) as (-> & ty' & -> & T).
    apply bind_back in E. destruct E as (done & c1 & E2 & E).
    assert (done = Val None /\ c1 = c) as [-> ->].
    { destruct ty' as [cc|]; [|injection E2 as <- <-; auto]. destruct (T _ eq_refl) as (w & Sw & B). pose proof (SyT _ _ _ Sw B) as X.
      destruct cc; try (injection E2 as <- <-; auto); exfalso; apply X; cbn; auto 9. }
    apply bind_back in E. destruct E as (ty2 & c1 & E3 & E).
    assert (R' : exists k2, t_concept r = None \/ one k2 r).
    { destruct R as [k2 t O2|]; [exists k2; auto|exists 0; left; reflexivity]. }
    destruct R' as (k2 & O2). destruct (c_type _ _ _ _ _ O2 H E3) as (-> & ty2' & -> & T2).
    assert (X : opt_cct_eqb (Some CReduction) ty2' = false).
    { destruct ty2' as [cc|]; [|reflexivity]. destruct (T2 _ eq_refl) as (w & Sw & B). pose proof (SyT _ _ _ Sw B) as X.
      destruct cc; try reflexivity; exfalso; apply X; cbn; auto 9. }
    rewrite X in E. clear X. unfold reduce_and_call_pair in E.
    apply bind_back in E. destruct E as (lr & c1 & E4 & E). unfold c_reduce in E4. assert (S := proj1 H).
    apply (asked_search cfg snap fuel extra _ (fun r => match r with Some (t, _) => exists k', one k' t | None => True end)) in E4; [|exact H| |].
    2:{ unfold ops_of. rewrite S. apply (oc_reduce _ Cl). }
    2:{ intros s q s' G X. unfold ops_of in X. rewrite S in X. destruct (one_reduced _ _ _ _ _ _ O G X) as (G1 & Q).
        split; [exact G1|]. destruct q as [[q why]|]; [|exact I]. destruct Q as (k' & _ & O'). eauto. }
    destruct E4 as (H1 & lr' & -> & R1).
    apply bind_back in E. destruct E as (rr & c2 & E5 & E). unfold c_reduce in E5. assert (S1 := proj1 H1).
    apply (asked_search cfg snap fuel extra _ (fun r => match r with Some (t, _) => exists ks', row_tree ks' t | None => True end)) in E5; [|exact H1| |].
    2:{ unfold ops_of. rewrite S1. apply (oc_reduce _ Cl). }
    2:{ intros s q s' G X. unfold ops_of in X. rewrite S1 in X. destruct (proj2 (rows_evaluated _) _ _ _ _ _ R G X) as (G1 & Q).
        split; [exact G1|]. destruct q as [[q why]|]; [|exact I]. destruct Q as (ks' & _ & R'). eauto. }
    destruct E5 as (H2 & rr' & -> & R2).
    destruct lr' as [[l' why]|], rr' as [[r' why']|].
    - destruct R1 as (k' & O'), R2 as (ks' & R'). exact (IH _ _ _ _ _ _ _ O' R' H2 E).
    - destruct R1 as (k' & O'). exact (IH _ _ _ _ _ _ _ O' R H2 E).
    - destruct R2 as (ks' & R'). exact (IH _ _ _ _ _ _ _ O R' H2 E).
    - injection E as <- <-. auto.
  Qed.
  Lemma row_inferred n ks t s r s' : row_tree ks t -> good s ->
    find_examples_of_inferred_reduction cfg snap fuel (ops n) own t s = Ok (r, s') -> good s' /\ r = None.
  Proof.
    intros R G E. pose proof G as (Q & So & Fi).
    destruct (infers_nothing_for cfg snap fuel F N LC LR UL lab CI BL BI ON _ _ _ _ _
      (quiet_laws cfg snap fuel F N LC LR UL lab CI BL BI ON)) with (n := n) (e := own) (o := @None nat) (t := t) (s := s) (r := r) (s' := s')
      as (-> & H2 & U2); try assumption.
    - intros q X. exact (proj1 X).
    - intros e X. exact (proj1 X).
    - apply own_simple.
    - intros h d q e' q' Hh Wd Hq Eq. exact (own_spawn cfg snap fuel _ _ _ _ _ Hh Wd Hq Eq).
    - intros c q u q' Bc Hq Eq. exact (proj2 (own_tree cfg snap fuel F N LR _ _ _ _ _ (or_introl (ex_intro _ _ Bc)) Hq Eq)).
    - intros k _. apply UN.
    - intros e' Se'. exact (row_inert _ _ _ Se' R).
    - split; [exact (good_untouched _ _ _ _ _ _ G H2 U2)|reflexivity].
  Qed.
  Definition answer_words (ks : list nat) (vs : list text) : Prop := exists zs, Forall2 ended ks zs /\ Forall2 sym vs zs.
  Lemma words_called n : forall k ks l r x c a c', one k l -> row_tree ks r -> row_tree (k :: ks) (TBranch (Some x) None l r [] []) -> asked c ->
    fst (calls cfg fuel n) (TBranch (Some x) None l r [] []) c = Ok (a, c') ->
    asked c' /\ exists vs, answer_words (k :: ks) vs /\ a = Val (joined vs).
  Proof.
    induction n as [|n IH]; intros k ks l r x c a c' O R Rt H E; [discriminate|]. cbn [calls fst] in E. unfold call_step in E.
    pose proof (search_clean cfg snap fuel fuel) as Cl. cbn [t_concept t_exp] in E.
    apply bind_back in E. destruct E as (o & c1 & [= <- <-] & E).
    unfold on_irreducible in E. apply bind_back in E. destruct E as (z & c1 & E1 & E).
    apply catch_back in E1. destruct E1 as (z1 & -> & E1).
    destruct (row_called _ _ _ _ _ _ _ _ O R H E1) as [H1 ->].
    apply bind_back in E. destruct E as (z & c2 & E2 & E).
    apply catch_back in E2. destruct E2 as (z1 & -> & E2). unfold try_reducing_then_call in E2.
    apply bind_back in E2. destruct E2 as (nf & c3 & E3 & E2). unfold c_normal_form in E3. assert (S1 := proj1 H1).
    apply (asked_search cfg snap fuel extra _ (fun q => exists zs, row_tree zs q /\ Forall2 ended (k :: ks) zs)) in E3; [|exact H1| |].
    2:{ unfold ops_of. rewrite S1. apply sclean_smap, (oc_nf _ Cl). }
    2:{ intros s q s' G X. unfold ops_of in X. rewrite S1 in X. unfold smap in X. apply sb in X.
        destruct X as ([a' why] & s1 & X & [= <- <-]). cbn [fst]. exact (row_normal _ _ _ _ _ _ _ _ Rt G X). }
    destruct E3 as (H3 & nf' & -> & zs & Rz & En).
    destruct zs as [|z zs]; [inversion En|]. inversion En as [|? ? ? ? En1 En2]; subst.
    assert (L2 : zs <> []).
    { intros ->. inversion En2; subst. destruct (row_some _ _ R eq_refl). }
    destruct (key_eqb_spec (t_key nf') (t_key (TBranch (Some x) None l r [] []))) as [Ke|_].
    - apply bind_back in E2. destruct E2 as (inf & c4 & E4 & E2). unfold c_inferred in E4. assert (S3 := proj1 H3).
      apply (asked_search cfg snap fuel extra _ (fun r => r = None)) in E4; [|exact H3| |].
      2:{ unfold ops_of. rewrite S3. apply inferred_clean, Cl. }
      2:{ intros s q s' G X. unfold ops_of in X. rewrite S3 in X. exact (row_inferred _ _ _ _ _ _ Rt G X). }
      destruct E4 as (H4 & q & -> & ->). injection E2 as <- <-.
      apply bind_back in E. destruct E as (t & c5 & E5 & E). unfold c_contract in E5. assert (S4 := proj1 H4).
      apply (asked_search cfg snap fuel extra _ (row_tree (k :: ks))) in E5; [|exact H4| |].
      2:{ unfold ops_of. rewrite S4. apply contract_pair_clean, Cl. }
      2:{ intros s q s' G X. unfold ops_of in X. rewrite S4 in X. exact (row_contracted _ _ _ _ _ _ _ _ (proj1 (rows_evaluated _)) O R G X). }
      destruct E5 as (H5 & t' & -> & Rt'). injection E as <- <-. split; [exact H5|].
      destruct (row_words _ _ Rt') as (ws & Sw & ->). exists ws. split; [|reflexivity]. exists (k :: ks). split; [|exact Sw].
      inversion Rz as [|? ? zl zr zw Oz Rzr Sz]; subst; [congruence|]. injection Ke as Ke.
      assert (Sx : Forall2 sym zw (k :: ks)).
      { revert Ke. inversion Rt as [? ? (? & ? & _ & Qx & _)|? ? ? ? xw Ox Rxr Sx]; subst; [discriminate Qx|]. intros Ke.
        apply joined_one in Ke; [subst; exact Sx|exact (all_words _ _ Sz)|exact (all_words _ _ Sx)|inversion Sz; discriminate|inversion Sx; discriminate]. }
      rewrite (ids_one _ _ _ Sx Sz) in *. exact En.
    - unfold with_pin in E2. apply obind_ok in E2. destruct E2 as ([r1 c4] & E4 & [= <- <-]).
      pose proof Rz as Rz'. inversion Rz as [|? ? zl zr zw Oz Rzr Sz]; subst; [congruence|].
      apply (IH _ _ _ _ _ _ _ _ Oz Rzr Rz') in E4; [|exact H3]. destruct E4 as (H4 & vs & (zs' & En' & Sv) & ->). injection E as <- <-.
      split; [exact H4|]. exists vs. split; [|reflexivity]. exists zs'. split; [exact (all_on _ _ _ En En')|exact Sv].
  Qed.

  (** *** Reading *)
  Lemma kind_same c c' w : c_snap c = c_snap c' -> c_delta c = c_delta c' -> kind_of_symbol cfg fuel c w = kind_of_symbol cfg fuel c' w.
  Proof. intros A B. unfold kind_of_symbol. rewrite A, B. reflexivity. Qed.
  Lemma pair_put k ks l r c x c' : one k l -> row_tree ks r -> asked c -> ast_from_pair cfg fuel l r c = Ok (x, c') ->
    asked c' /\ exists t, x = Val t /\ row_tree (k :: ks) t.
  Proof.
    intros O R H E. pose proof (search_clean cfg snap fuel fuel) as Cl. assert (S := proj1 H).
    unfold ast_from_pair in E. apply bind_back in E. destruct E as (ty & c2 & E3 & E).
    assert (R' : exists k2, t_concept r = None \/ one k2 r).
    { destruct R as [k2 t O2|]; [exists k2; auto|exists 0; left; reflexivity]. }
    destruct R' as (k2 & O2). destruct (c_type _ _ _ _ _ O2 H E3) as (-> & ty' & -> & _).
    apply bind_back in E. destruct E as (uu & c2 & E4 & E).
    assert (uu = Val tt /\ c2 = c) as [-> ->].
    { destruct (one_vars _ _ O) as (w & kd & -> & Kd). cbn [is_leaf_variable] in E4.
      destruct kd; try congruence; rewrite andb_false_r in E4; injection E4 as <- <-; auto. }
    unfold c_combine in E. apply (asked_search cfg snap fuel extra _ (row_tree (k :: ks))) in E; [exact E|exact H| |].
    - unfold Parser.ops_of. rewrite S. apply combine_ast_clean, Cl.
    - intros s q s' G X. unfold Parser.ops_of in X. rewrite S in X. exact (row_combined _ _ _ _ _ _ _ _ (proj1 (rows_evaluated _)) O R G X).
  Qed.
  Lemma row_read c0 p n : c_snap c0 = snap -> c_delta c0 = delta_default -> spells (kind_of_symbol cfg fuel c0) p n -> forall ws ks c r c',
    ws <> [] -> p = row ws -> Forall2 (means snap) ws ks -> Forall2 sym ws ks -> asked c -> ast_from_nested_syntax cfg fuel n c = Ok (r, c') ->
    asked c' /\ exists t, r = Val t /\ row_tree ks t.
  Proof.
    intros S0 D0 X. induction X as [w k K|a b na nb s Xa IHa Xb IHb|p n s X IH]; intros ws ks c r c' Nw Ep Me Sy H E.
    - assert (H' := H). destruct H' as (S & D & _).
      assert (ws = [w]) as -> by (destruct ws as [|w' [|v ws]]; [congruence|cbn in Ep; congruence|discriminate Ep]).
      inversion Me as [|? k' ? ? Mw Ms]; subst. inversion Ms; subst. inversion Sy as [|? ? ? ? Sw _]; subst.
      rewrite (kind_same c0 c) in K by congruence. rewrite <- S in Mw.
      destruct (leaf_known _ _ _ _ _ _ _ _ F D Mw K E) as (lk & -> & Nl & ->). split; [exact H|].
      eexists. split; [reflexivity|]. constructor. exists w, lk. auto.
    - destruct ws as [|w [|v ws]]; [congruence|discriminate Ep|]. cbn [row] in Ep. injection Ep as -> Eb.
      inversion Me as [|? k ? ks' Mw Ms]; subst. inversion Sy as [|? ? ? ? Sw Ss]; subst.
      cbn [ast_from_nested_syntax] in E. apply bind_back in E. destruct E as (ts & c1 & E1 & E).
      apply bind_back in E1. destruct E1 as (ta & c2 & Ea & E1).
      destruct (IHa [w] [k] _ _ _ ltac:(discriminate) eq_refl (Forall2_cons _ _ Mw (Forall2_nil _)) (Forall2_cons _ _ Sw (Forall2_nil _)) H Ea)
        as (H2 & ta' & -> & Ra).
      apply bind_back in E1. destruct E1 as (tb & c3 & Eb & E1). apply bind_back in Eb. destruct Eb as (tb' & c4 & Eb & E2).
      destruct (IHb (v :: ws) ks' _ _ _ ltac:(discriminate) eq_refl Ms Ss H2 Eb) as (H4 & tb'' & -> & Rb).
      injection E2 as <- <-. injection E1 as <- <-.
      assert (Oa : one k ta') by (inversion Ra as [? ? O|? ? ? ? ? ? Rn]; subst; [exact O|inversion Rn]).
      exact (pair_put _ _ _ _ _ _ _ Oa Rb H4 E).
    - cbn [ast_from_nested_syntax] in E. apply bind_back in E. destruct E as (ts & c1 & E1 & E).
      apply bind_back in E1. destruct E1 as (ta & c2 & Ea & E1).
      destruct (IH _ _ _ _ _ Nw Ep Me Sy H Ea) as (H2 & ta' & -> & Ra). injection E1 as <- <-.
      unfold parse_list in E. cbn in E. injection E as <- <-. eauto.
  Qed.
  Lemma one_expanded n k l s t s' : one k l -> good s -> o_expand (ops n) own l s = Ok (t, s') -> good s' /\ one k t.
  Proof.
    intros (w & kd & S & -> & _) G E.
    destruct (own_expand cfg snap fuel F N LR extra _ _ _ _ _ _ _ (sym_elementary _ _ S) G E) as [G1 L]. split; [exact G1|exact (one_leaf _ _ _ S L)].
  Qed.
  Lemma row_expanded n : forall ks u s t s', row_tree ks u -> good s -> o_expand (ops n) own u s = Ok (t, s') -> good s' /\ row_tree ks t.
  Proof.
    induction n as [|n IH]; intros ks u s t s' R G E; [discriminate|].
    destruct R as [k u O|k ks l r ws O R S].
    - destruct (one_expanded _ _ _ _ _ _ O G E) as [G1 O1]. split; [exact G1|now constructor].
    - cbn [search step o_expand] in E. unfold expand in E. cbn [t_concept t_exp] in E.
      apply sb in E. destruct E as (l' & s1 & E1 & E). destruct (one_expanded _ _ _ _ _ _ O G E1) as [G1 O1].
      apply sb in E. destruct E as (r' & s2 & E2 & E). destruct (IH _ _ _ _ _ R G1 E2) as [G2 R2].
      exact (row_combined _ _ _ _ _ _ _ _ (proj1 (rows_evaluated _)) O1 R2 G2 E).
  Qed.
  Lemma top_expanded n k ks l r s t s' : one k l -> row_tree ks r -> good s -> o_expand (ops n) own (new_pair l r) s = Ok (t, s') ->
    good s' /\ row_tree (k :: ks) t.
  Proof.
    intros O R G E. destruct n as [|n]; [discriminate|]. cbn [search step o_expand] in E. unfold expand in E.
    assert (X : t_concept (new_pair l r) = None /\ t_exp (new_pair l r) = Some (l, r)).
    { unfold new_pair, branch. match goal with |- context [pair_vars ?x ?y] => destruct (pair_vars x y) end. auto. }
    destruct X as [Xc Xe]. rewrite Xc, Xe in E.
    apply sb in E. destruct E as (l' & s1 & E1 & E). destruct (one_expanded _ _ _ _ _ _ O G E1) as [G1 O1].
    apply sb in E. destruct E as (r' & s2 & E2 & E). destruct (row_expanded _ _ _ _ _ _ R G1 E2) as [G2 R2].
    exact (row_combined _ _ _ _ _ _ _ _ (proj1 (rows_evaluated _)) O1 R2 G2 E).
  Qed.
  Lemma no_variables ks t : row_tree ks t -> forall c, create_variable_concepts t c = Ok (Val t, c).
  Proof.
    induction 1 as [k t O|k ks l r ws O R IH S]; intros c.
    - destruct (one_vars _ _ O) as (w & kd & -> & Kd). destruct kd; try congruence; reflexivity.
    - destruct (one_vars _ _ O) as (w & kd & -> & Kd). cbn [create_variable_concepts].
      unfold cbind at 1. destruct kd; try congruence; unfold cret at 1; cbn [obind]; unfold cbind; rewrite IH; reflexivity.
  Qed.
  Lemma row_proper ws : Forall word ws -> ws <> [] -> proper (row ws).
  Proof.
    induction 1 as [|w ws W Ws IH]; intros Nw; [congruence|]. destruct ws as [|v ws].
    - intros x [<-|[]]. exact W.
    - intros x J. change (words_of (row (w :: v :: ws))) with (w :: words_of (row (v :: ws))) in J. destruct J as [<-|J]; [exact W|]. apply IH; [discriminate|exact J].
  Qed.
  Lemma words_run ws ks c r c' : le 2 (length ws) -> Forall2 (means snap) ws ks -> Forall2 sym ws ks -> asked c ->
    run_command cfg fuel (spelled (row ws)) c = Ok (r, c') ->
    asked c' /\ exists vs, answer_words ks vs /\ r = Val (joined vs).
  Proof.
    intros Lw Me Sy H E. unfold run_command in E. pose proof (search_clean cfg snap fuel fuel) as Cl.
    apply bind_back in E. destruct E as (t & c1 & E1 & E). assert (H' := H). destruct H' as (S & D & _).
    destruct ws as [|w [|v ws]]; cbn in Lw; try lia. pose proof (row_proper _ (all_words _ _ Sy) ltac:(discriminate)) as Pr.
    inversion Me as [|? k ? ks' Mw Ms]; subst ks. inversion Sy as [|? ? ? ? Sw Ss]. subst.
    change (row (w :: v :: ws)) with (Both (Word w) (row (v :: ws))) in *.
    destruct (both_read _ _ _ _ _ _ _ D Pr E1) as (na & nb & Xa & Xb & E2). clear E1.
    apply bind_back in E2. destruct E2 as (ta & c2 & Ea & E2).
    destruct (row_read _ _ _ S D Xa [w] [k] _ _ _ ltac:(discriminate) eq_refl (Forall2_cons _ _ Mw (Forall2_nil _)) (Forall2_cons _ _ Sw (Forall2_nil _)) H Ea)
      as (H2 & ta' & -> & Ra).
    assert (Oa : one k ta') by (inversion Ra as [? ? O|? ? ? ? ? ? Rn]; subst; [exact O|inversion Rn]).
    apply bind_back in E2. destruct E2 as (tb & c3 & Eb & E2).
    destruct (row_read _ _ _ S D Xb (v :: ws) ks' _ _ _ ltac:(discriminate) eq_refl Ms Ss H2 Eb) as (H3 & tb' & -> & Rb).
    injection E2 as <- <-. assert (S3 := proj1 H3).
    apply bind_back in E. destruct E as (t & c4 & E2 & E). unfold c_expand in E2.
    apply (asked_search cfg snap fuel extra _ (row_tree (k :: ks'))) in E2; [|exact H3| |].
    2:{ unfold ops_of. rewrite S3. apply (oc_expand _ Cl). }
    2:{ intros s q s' G X. unfold ops_of in X. rewrite S3 in X. exact (top_expanded _ _ _ _ _ _ _ _ Oa Rb G X). }
    destruct E2 as (H4 & t' & -> & Rt). apply bind_back in E. destruct E as (q & c5 & E2 & E).
    rewrite (no_variables _ _ Rt) in E2. cbn [obind] in E2. injection E2 as <- <-. pose proof Rt as Rt'.
    inversion Rt' as [? ? O|? ? l r' xs Ol Rr Sx]; subst; [inversion Ss|].
    exact (words_called _ _ _ _ _ _ _ _ _ Ol Rr Rt H4 E).
  Qed.
  Lemma words_executed ws ks c x c' : ready c -> le 2 (length ws) -> Forall2 (means snap) ws ks -> Forall2 sym ws ks -> asked c ->
    execute cfg fuel (spelled (row ws)) c = Ok (x, c') ->
    (exists vs, answer_words ks vs /\ x = joined vs) /\ c_snap c' = snap /\ c_delta c' = delta_default /\
      good (start_state (c_cache c') (c_tick c')).
  Proof.
    intros Rd Lw Me Sy H E. destruct (execute_run cfg fuel _ c x c' F Rd E) as (z & c1 & E1 & _ & An & _).
    destruct (words_run _ _ _ _ _ Lw Me Sy H E1) as ((S1 & D1 & _ & G1) & vs & Av & ->). split; [exists vs; auto|].
    destruct (execute_quiet _ _ _ _ _ _ _ _ Rd E E1) as (A1 & A2 & A3 & _); [unfold recorded; rewrite D1; reflexivity|].
    destruct H as (S & D & _). rewrite A1, A2, A3. split; [exact S|]. split; [exact D|]. exact G1.
  Qed.

  (** ** The brackets left out *)
  Lemma one_right k t c r c' : one k t -> asked c -> c_assoc cfg fuel t c = Ok (r, c') -> asked c' /\ r = Val ARight.
  Proof.
    intros O H E. unfold c_assoc in E. assert (S := proj1 H). pose proof (search_clean cfg snap fuel fuel) as Cl.
    apply (asked_search cfg snap fuel extra _ (fun a => a = ARight)) in E; [|exact H| |].
    - destruct E as (H1 & a & -> & ->). auto.
    - unfold Parser.ops_of. rewrite S. apply (oc_assoc _ Cl).
    - intros s a s' G X. unfold Parser.ops_of in X. rewrite S in X. exact (proj1 (rows_evaluated _) _ _ _ _ _ O G X).
  Qed.
  Definition built (ts : list tree) (t : tree) : Prop := exists ks, Forall2 one ks ts /\ row_tree ks t.
  Lemma built_more l ts r c x c' : (exists k, one k l) -> built ts r -> asked c -> c_combine cfg fuel l r c = Ok (x, c') ->
    asked c' /\ exists t, x = Val t /\ built (l :: ts) t.
  Proof.
    intros (k & O) (ks & Os & R) H E. unfold c_combine in E. assert (S := proj1 H). pose proof (search_clean cfg snap fuel fuel) as Cl.
    apply (asked_search cfg snap fuel extra _ (row_tree (k :: ks))) in E; [|exact H| |].
    - destruct E as (H1 & t & -> & R1). split; [exact H1|]. exists t. split; [reflexivity|]. exists (k :: ks). split; [constructor; assumption|exact R1].
    - unfold Parser.ops_of. rewrite S. apply combine_ast_clean, Cl.
    - intros s a s' G X. unfold Parser.ops_of in X. rewrite S in X. exact (row_combined _ _ _ _ _ _ _ _ (proj1 (rows_evaluated _)) O R G X).
  Qed.
  Lemma leaves_one ws ks ts : Forall2 sym ws ks -> Forall2 word_leaf (combine ws ks) ts -> Forall2 one ks ts.
  Proof.
    intros S. revert ts. induction S as [|w k ws ks Sw _ IH]; intros ts W; inversion W as [|? t ? ts' (lk & -> & Nv) W']; subst; constructor; [|exact (IH _ W')].
    exists w, lk. auto.
  Qed.
  Lemma ones_some ks ts : Forall2 one ks ts -> Forall (fun t => exists k, one k t) ts.
  Proof. induction 1; constructor; eauto. Qed.
  Lemma ones_in (P : nat -> Prop) ks ts t : Forall2 one ks ts -> Forall P ks -> In t ts -> exists k, one k t /\ P k.
  Proof. induction 1 as [|k u ks ts O _ IH]; intros Un J; [destruct J|]. inversion Un; subst. destruct J as [<-|J]; eauto. Qed.
  Lemma ones_same ks ks' ts : Forall2 one ks ts -> Forall2 one ks' ts -> ks' = ks.
  Proof.
    intros W. revert ks'. induction W as [|k t ks ts O _ IH]; intros ks' O'; inversion O' as [|k' ? ks2 ? Ok' Os']; subst; [reflexivity|].
    f_equal; [|exact (IH _ Os')]. destruct O as (? & ? & _ & -> & _), Ok' as (? & ? & _ & [= _ Q _] & _). symmetry. exact Q.
  Qed.
  Lemma flat_long ws ks c r c' : le 3 (length ws) -> Forall2 (means snap) ws ks -> Forall2 sym ws ks -> Forall (fun k => ~ ranked snap k) ks -> asked c ->
    run_command cfg fuel (joined ws) c = Ok (r, c') ->
    asked c' /\ exists vs, answer_words ks vs /\ r = Val (joined vs).
  Proof.
    intros Lw Me Sy Un H E. unfold run_command in E. pose proof (search_clean cfg snap fuel fuel) as Cl.
    apply bind_back in E. destruct E as (t & c1 & E1 & E). assert (H' := H). destruct H' as (S & D & _).
    pose proof (all_words _ _ Sy) as Wd. destruct ws as [|w1 [|w2 [|w3 ws]]]; cbn in Lw; try lia.
    apply (flat_read _ _ _ _ _ _ _ _ D Wd) in E1. destruct E1 as (kinds & K & E1).
    apply bind_back in E1. destruct E1 as (ts & c2 & E2 & E1). rewrite <- S in Me.
    apply (flat_leaves cfg fuel _ ks _ _ _ _ F D Me K) in E2. destruct E2 as (-> & ts' & -> & W). rewrite S in Me.
    apply (leaves_one _ _ _ Sy) in W. pose proof (same_length _ _ _ W) as L1. pose proof (same_length _ _ _ Sy) as L2. cbn in L2.
    destruct ts' as [|t1 [|t2 [|t3 ts]]]; cbn in L1; try lia.
    apply (flat_list cfg fuel F asked (asked_shuffle cfg snap fuel F extra) (fun t => exists k, one k t)
      (fun t c r c' '(ex_intro _ k O) => one_right k t c r c' O) built
      (fun t '(ex_intro _ k O) => ex_intro _ [k] (conj (Forall2_cons _ _ O (Forall2_nil _)) (RowOne _ _ O))) built_more) in E1; [|exact (ones_some _ _ W)|exact H|].
    2:{ intros t0 J. destruct (ones_in _ _ _ _ W Un J) as (k & (w & kd & _ & -> & _) & R). exists (Committed k). split; [reflexivity|]. intros X.
        apply (related_ranked cfg snap F LR HK BI _ _ S D) in X. destruct X as (k' & [= <-] & X). exact (R X). }
    destruct E1 as (H3 & u & -> & ks' & O' & Ru).
    rewrite (ones_same _ _ _ W O') in Ru. clear ks' O'.
    assert (S3 := proj1 H3). apply bind_back in E. destruct E as (t & c4 & E2 & E). unfold c_expand in E2.
    apply (asked_search cfg snap fuel extra _ (row_tree ks)) in E2; [|exact H3| |].
    2:{ unfold ops_of. rewrite S3. apply (oc_expand _ Cl). }
    2:{ intros s q s' G X. unfold ops_of in X. rewrite S3 in X. exact (row_expanded _ _ _ _ _ _ Ru G X). }
    destruct E2 as (H4 & t' & -> & Rt). apply bind_back in E. destruct E as (q & c5 & E2 & E).
    rewrite (no_variables _ _ Rt) in E2. cbn [obind] in E2. injection E2 as <- <-. pose proof Rt as Rt'.
    inversion Rt' as [? ? O|? ? l r' xs Ol Rr Sx]; subst; [cbn in L2; lia|].
    exact (words_called _ _ _ _ _ _ _ _ _ Ol Rr Rt H4 E).
  Qed.
  Lemma flat_run ws ks c r c' : le 2 (length ws) -> Forall2 (means snap) ws ks -> Forall2 sym ws ks -> Forall (fun k => ~ ranked snap k) ks -> asked c ->
    run_command cfg fuel (joined ws) c = Ok (r, c') ->
    asked c' /\ exists vs, answer_words ks vs /\ r = Val (joined vs).
  Proof.
    intros Lw Me Sy Un H E. destruct (le_lt_dec 3 (length ws)) as [L3|L3]; [exact (flat_long _ _ _ _ _ L3 Me Sy Un H E)|].
    refine (words_run ws ks c r c' Lw Me Sy H _). destruct ws as [|w [|v [|u ws]]]; cbn in Lw, L3; try lia. exact E.
  Qed.
  Lemma flat_executed ws ks c x c' : ready c -> le 2 (length ws) -> Forall2 (means snap) ws ks -> Forall2 sym ws ks -> Forall (fun k => ~ ranked snap k) ks -> asked c ->
    execute cfg fuel (joined ws) c = Ok (x, c') ->
    (exists vs, answer_words ks vs /\ x = joined vs) /\ c_snap c' = snap /\ c_delta c' = delta_default /\
      good (start_state (c_cache c') (c_tick c')).
  Proof.
    intros Rd Lw Me Sy Un H E. destruct (execute_run cfg fuel _ c x c' F Rd E) as (z & c1 & E1 & _ & An & _).
    destruct (flat_run _ _ _ _ _ Lw Me Sy Un H E1) as ((S1 & D1 & _ & G1) & vs & Av & ->). split; [exists vs; auto|].
    destruct (execute_quiet _ _ _ _ _ _ _ _ Rd E E1) as (A1 & A2 & A3 & _); [unfold recorded; rewrite D1; reflexivity|].
    destruct H as (S & D & _). rewrite A1, A2, A3. split; [exact S|]. split; [exact D|]. exact G1.
  Qed.
End Store.
