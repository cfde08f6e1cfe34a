(** Expressions made of words with any brackets: which words are answered. *)
From Verif Require Import Nester NesterFacts CommandFacts Grouping.
From Verif Require Import Start Snapshot Search Context LexerSpec LexerFacts NesterSpec StoreSpec StoreInv NameSpec Names StoreFacts
  MapFacts AstSpec AstFacts RangeFacts History Steps SearchKeeps SearchCaches Questions Existence Wide Earned Repeat CacheLife
  Quiet Displays Matches Implications Asking Shapes Unruled Spelled Answers Replies Clean Keyed Flat Outlines Checks Phrases.
From Coq Require Import String List PeanoNat Bool Permutation Lia.
Import ListNotations.
Local Open Scope zia_scope.

(** ** Specification *)
(** A text without its brackets. *)
Definition bare (x : text) : text := filter (fun c => negb (N.eqb c c_open || N.eqb c c_close)) x.
Definition compound (p : phrase) : Prop := match p with Word _ => False | Both _ _ => True end.

(** ** Texts *)
Lemma bare_app x y : bare (x ++ y) = bare x ++ bare y.
Proof. apply filter_app. Qed.
Lemma bare_parenthesise x : bare (parenthesise x) = bare x.
Proof. unfold parenthesise. change (c_open :: x ++ [c_close]) with ([c_open] ++ x ++ [c_close]). rewrite !bare_app. cbn. apply app_nil_r. Qed.
Lemma bare_word w : word w -> bare w = w.
Proof.
  intros [_ H]. unfold bare. induction w as [|c w IH]; [reflexivity|]. cbn [filter].
  rewrite IH by (intros d J; apply H; right; exact J). pose proof (H c (or_introl eq_refl)) as C.
  destruct (N.eqb_spec c c_open) as [->|_]; [discriminate C|]. destruct (N.eqb_spec c c_close) as [->|_]; [discriminate C|]. reflexivity.
Qed.
Lemma joined_app ws vs : ws <> [] -> vs <> [] -> joined (ws ++ vs) = joined ws ++ c_space :: joined vs.
Proof.
  intros Nw Nv. induction ws as [|w [|v ws] IH]; [congruence| |].
  - destruct vs; [congruence|]. reflexivity.
  - change ((w :: v :: ws) ++ vs) with (w :: (v :: ws) ++ vs). destruct ((v :: ws) ++ vs) eqn:E; [discriminate E|].
    rewrite !joined_more, <- app_assoc. cbn [app]. rewrite <- IH by discriminate. reflexivity.
Qed.

Section Store.
  Variables (cfg : config) (snap : snapshot) (fuel : nat).
  Hypothesis F : fair cfg.
  Hypothesis N : self_numbered snap.
  Hypothesis LC : compositions_are_listed snap.
  Hypothesis LR : listed_compositions_are_real snap.
  Hypothesis UL : forall a b, built_in snap a CLabel -> built_in snap b CLabel -> a = b.
  Variable lab : nat.
  Hypothesis CI : concrete_concept_id cfg snap delta_default CLabel = Ok (Some (Committed lab)).
  Hypothesis BL : built_in snap lab CLabel.
  Hypothesis BI : forall cc c, concrete_concept_id cfg snap delta_default cc = Ok (Some c) -> is_built_in snap c cc.
  Hypothesis ON : operators_named snap.
  Hypothesis HK : hands_keyed snap.
  (** The words and their symbols. *)
  Variable sym : text -> nat -> Prop.
  Hypothesis SyW : forall w k, sym w k -> word w.
  Hypothesis SyS : forall w k, sym w k -> settled_symbol snap k w.
  Hypothesis SyE : forall w k, sym w k -> exists z v, ends snap k z v /\ sym v z.
  Hypothesis SyR : forall w k q, sym w k -> reduces snap k q -> exists v, sym v q.
  Hypothesis SyI : forall w k k', sym w k -> sym w k' -> k = k'.
  Hypothesis SyN : forall w w' k, sym w k -> sym w' k -> w = w'.
  (** They are not commands or relations, no rule is about them, and no two of them are a concept. *)
  Hypothesis SyT : forall w k cc, sym w k -> built_in snap k cc -> ~ In cc [CLet; CForget; CLabel; CReduction; CGreaterThan].
  Hypothesis SyP : forall w k p, sym w k -> mentions snap p k -> ~ pattern snap p.
  Hypothesis SyC : forall w v k l, sym w k -> sym v l -> uncomposed snap k l.
  Hypothesis AsW : forall a, built_in snap a CAssociativity -> sym (txt "assoc") a.
  Hypothesis UN : forall k, unruled snap k.
  Notation ops n := (search cfg snap fuel n).
  Notation leaf_of := (leaf_of cfg snap fuel).
  Notation own := (new_env delta_default []).

  (** A tree of the words, with any grouping and any brackets in its text. *)
  Inductive told : list text -> tree -> Prop :=
  | ToldWord w k kd : sym w k -> kd <> LVariable -> told [w] (TLeaf w (Some (Committed k)) kd)
  | ToldBoth ws vs l r x : told ws l -> told vs r -> bare x = joined (ws ++ vs) -> told (ws ++ vs) (TBranch (Some x) None l r [] []).
  Definition steps (w v : text) : Prop := exists k l, sym w k /\ sym v l /\ stepped snap k l.
  Definition still (w : text) : Prop := forall k q, sym w k -> ~ reduces snap k q.
  Definition right_told (ws : list text) (r : rresult) : Prop :=
    match r with
    | None => Forall still ws
    | Some (t, _) => exists vs, Forall2 steps ws vs /\ told vs t
    end.
  Definition in_words (ws : list text) : Prop := Forall (fun w => exists k, sym w k) ws.
  (** What may be remembered. *)
  Definition right_words (x : text) (r : rresult) : Prop :=
    forall ws, in_words ws -> le 2 (length ws) -> bare x = joined ws -> right_told ws r.
  Definition words_text (x : text) : Prop := exists ws, in_words ws /\ le 2 (length ws) /\ bare x = joined ws.
  Variable extra : text -> rresult -> Prop.
  Hypothesis ExOut : forall x r, extra x r -> right_words x r.
  Hypothesis ExIn : forall x r, words_text x -> right_words x r -> extra x r.
  Notation good := (good cfg snap fuel extra).

  Lemma sym_elementary w k : sym w k -> elementary snap k.
  Proof. intros H. apply (SyS _ _ H). Qed.
  Lemma word_leaf w k t : sym w k -> leaf_of k t -> told [w] t.
  Proof.
    intros S L. destruct (settled_leaf cfg snap fuel LC LR UL lab CI BL _ _ _ (SyS _ _ S) L) as (kd & -> & K). now constructor.
  Qed.
  Lemma told_some ws t : told ws t -> ws <> [].
  Proof. induction 1 as [|ws vs l r x A IHa B IHb X]; [discriminate|]. destruct ws; [congruence|discriminate]. Qed.
  Lemma told_shown ws t : told ws t -> bare (display t) = joined ws.
  Proof. intros [w k kd S K|ws' vs l r x A B X]; [exact (bare_word _ (SyW _ _ S))|exact X]. Qed.
  Lemma told_words ws t : told ws t -> in_words ws.
  Proof.
    induction 1 as [w k kd S K|ws vs l r x A IHa B IHb X]; [constructor; [eauto|constructor]|apply Forall_app; auto].
  Qed.
  Lemma words_are ws : in_words ws -> Forall word ws.
  Proof. apply Forall_impl. intros w (k & S). exact (SyW _ _ S). Qed.
  Lemma told_vars ws t : told ws t -> match t with TLeaf _ _ k => k <> LVariable | TBranch _ _ _ _ fv bv => fv = [] /\ bv = [] end.
  Proof. intros [w k kd _ K|]; [exact K|auto]. Qed.
  Lemma told_branch ws vs l r x : told ws l -> told vs r -> bare x = joined (ws ++ vs) -> told (ws ++ vs) (branch (Some x) None l r).
  Proof.
    intros A B X. replace (branch (Some x) None l r) with (TBranch (Some x) None l r [] []); [now constructor|].
    pose proof (told_vars _ _ A) as VA. pose proof (told_vars _ _ B) as VB. unfold branch, pair_vars, right_vars.
    destruct l as [y c kl|y c ll lr fv bv], r as [x' c' kr|x' c' rl rr fv' bv'].
    - destruct kl, kr; try congruence; reflexivity.
    - destruct VB as [-> ->]. destruct kl; try congruence; reflexivity.
    - destruct VA as [-> ->]. destruct kr; try congruence; reflexivity.
    - destruct VA as [-> ->], VB as [-> ->]. reflexivity.
  Qed.
  Lemma told_two ws vs l r : told ws l -> told vs r -> le 2 (length (ws ++ vs)).
  Proof.
    intros A B. pose proof (told_some _ _ A). pose proof (told_some _ _ B). destruct ws, vs; try congruence. rewrite app_length. cbn. lia.
  Qed.

  (** *** No two of the words are a concept *)
  Lemma told_concept ws t : told ws t -> t_concept t = None \/ exists w k, ws = [w] /\ sym w k /\ t_concept t = Some (Committed k).
  Proof. intros [w k kd S K|]; [right; exists w, k; auto|left; reflexivity]. Qed.
  Lemma unlisted e w v k b m : widens delta_default (e_delta e) -> sym w k -> sym v b -> known cfg snap e (Committed k) m ->
    m_find_as_hand m (Committed b) HLeft = None.
  Proof.
    intros W Sw Sv R. unfold known in R. apply (wide_back cfg snap _ W) in R. destruct R as (c & L & ->).
    cbn [m_find_as_hand mixed_of_committed ch_left aget]. unfold find_as_hand, hand_of.
    destruct (aget Nat.eqb b (lefthand_of c)) as [p|] eqn:A; [|reflexivity]. exfalso. apply (SyC _ _ _ _ Sw Sv p), LR. left. exists c. auto.
  Qed.
  Lemma told_apart e a b l r c : widens delta_default (e_delta e) -> told a l -> told b r -> pair_concept cfg snap e l r c -> c = None.
  Proof.
    intros W A B. unfold pair_concept. destruct (told_concept _ _ A) as [Q|(w & k & -> & Sw & Q)]; rewrite Q; [auto|].
    destruct (told_concept _ _ B) as [Q'|(v & k' & -> & Sv & Q')]; rewrite Q'; [auto|].
    intros (m & Rm & ->). exact (unlisted e _ _ _ _ _ W Sw Sv Rm).
  Qed.
  Lemma told_alone a b l r s c s' : told a l -> told b r -> composition_concept cfg snap own l r s = Ok (c, s') -> c = None /\ s' = s.
  Proof.
    intros A B E. unfold composition_concept in E.
    destruct (told_concept _ _ A) as [Q|(w & k & -> & Sw & Q)]; rewrite Q in E; [injection E as <- <-; auto|].
    destruct (told_concept _ _ B) as [Q'|(v & k' & -> & Sv & Q')]; rewrite Q' in E; [injection E as <- <-; auto|].
    apply sb in E. destruct E as (m & s1 & Rm & E). apply read_ok in Rm. destruct Rm as [Rm ->]. injection E as <- <-. split; [|reflexivity].
    exact (unlisted own _ _ _ _ _ (WidensSame _) Sw Sv Rm).
  Qed.
  Lemma told_inert e ws t : simple snap e -> told ws t -> inert cfg snap e t.
  Proof.
    intros Se. induction 1 as [w k kd S K|a b l r x A IHa B IHb X].
    - apply InertLeaf. apply (closed_leaf cfg snap); [exact Se|]. exact (sym_elementary _ _ S).
    - apply InertPair; [exact IHa|exact IHb|]. intros c. exact (told_apart _ _ _ _ _ _ (proj1 Se) A B).
  Qed.

  (** *** No rule applies *)
  Definition about_some (g : cid) : Prop := exists p w k, g = Committed p /\ sym w k /\ mentions snap p k.
  Lemma told_generalisations ws t : told ws t -> forall s gs s', find_generalisations cfg snap own t s = Ok (gs, s') ->
    (forall g, In g gs -> about_some g) /\ s' = s.
  Proof.
    assert (HL : forall k c g, lookup snap k = Some c -> In g (hand_of c HLeft) -> composed snap (snd g) k (fst g)).
    { intros k c [j p'] L J. apply LR. left. exists c. split; [exact L|]. exact (in_keyed _ _ _ (HK _ _ HLeft L) J). }
    assert (HR : forall k c g, lookup snap k = Some c -> In g (hand_of c HRight) -> composed snap (snd g) (fst g) k).
    { intros k c [j p'] L J. apply LR. right. exists c. split; [exact L|]. exact (in_keyed _ _ _ (HK _ _ HRight L) J). }
    assert (AB : forall gs, (forall g, In g gs -> about_some g) -> forall g, In g gs -> exists k, g = Committed k).
    { intros gs H g J. destruct (H _ J) as (k & _ & _ & -> & _). eauto. }
    assert (CL : forall p0 t0, told p0 t0 -> forall g, In g (concept_list t0) -> exists w k, sym w k /\ g = Committed k).
    { intros p0 t0 T g J. unfold concept_list in J. destruct (told_concept _ _ T) as [Q|(w & k & -> & Sv & Q)]; rewrite Q in J; [destruct J|].
      destruct J as [<-|[]]. eauto. }
    induction 1 as [w k kd S K|a b l r x A IHa B IHb X]; intros s gs s' E; cbn [find_generalisations] in E.
    - injection E as <- <-. split; [intros g []|reflexivity].
    - apply sb in E. destruct E as (acc & s1 & E1 & E).
      apply (compositions_added cfg snap F _ _ about_some) in E1; [| | |intros g []].
      2:{ intros i c g J L Jg. destruct (CL _ _ A _ J) as (w & k & S & [= ->]). exists (snd g), w, k. split; [reflexivity|]. split; [exact S|].
          exact (MentionsLeft snap _ _ _ (HL _ _ _ L Jg)). }
      2:{ intros g J. destruct (CL _ _ A _ J) as (w & k & _ & ->). eauto. }
      destruct E1 as [A1 ->]. apply sb in E. destruct E as (acc2 & s1 & E1 & E).
      apply (compositions_added cfg snap F _ _ about_some) in E1; [| | |exact A1].
      2:{ intros i c g J L Jg. destruct (CL _ _ B _ J) as (w & k & S & [= ->]). exists (snd g), w, k. split; [reflexivity|]. split; [exact S|].
          exact (MentionsRight snap _ _ _ (HR _ _ _ L Jg)). }
      2:{ intros g J. destruct (CL _ _ B _ J) as (w & k & _ & ->). eauto. }
      destruct E1 as [A2 ->].
      apply sb in E. destruct E as (gl & s1 & Eg & E). destruct (IHa _ _ _ Eg) as [Ag ->].
      apply sb in E. destruct E as (acc3 & s1 & E1 & E).
      apply (compositions_added cfg snap F _ _ about_some) in E1; [| |exact (AB _ Ag)|exact A2].
      2:{ intros i c g J L Jg. destruct (Ag _ J) as (p & v & k & [= ->] & Sv & M). exists (snd g), v, k. split; [reflexivity|].
          split; [exact Sv|]. exact (MentionsInLeft snap _ _ _ _ (HL _ _ _ L Jg) M). }
      destruct E1 as [A3 ->]. apply sb in E. destruct E as (gr & s1 & Er & E). destruct (IHb _ _ _ Er) as [Ar ->].
      apply (compositions_added cfg snap F _ _ about_some) in E; [exact E| |exact (AB _ Ar)|exact A3].
      intros i c g J L Jg. destruct (Ar _ J) as (p & v & k & [= ->] & Sv & M). exists (snd g), v, k. split; [reflexivity|].
      split; [exact Sv|]. exact (MentionsInRight snap _ _ _ _ (HR _ _ _ L Jg) M).
  Qed.
  Lemma mention_composed p k : mentions snap p k -> exists x y, composed snap p x y.
  Proof. intros []; eauto. Qed.
  Lemma told_unruled n h t g s r s' : about_some g -> t_concept t = None ->
    try_rule cfg snap fuel (ops n) own h t g s = Ok (r, s') -> r = None /\ s' = s.
  Proof.
    intros (p & w & k & -> & Sw & M) T E. unfold try_rule in E. apply sb in E.
    destruct E as (vm & s1 & C & E).
    assert (Q : (vm = None \/ vm = Some []) /\ s1 = s).
    { destruct t as [x c kd|x c tl tr fv bv]; cbn [check_generalisation] in C; apply sb in C; destruct C as (f & s2 & Ef & C);
      unfold is_free_variable in Ef; apply sb in Ef; destruct Ef as (m & s3 & R & [= Ef <-]); apply read_ok in R; destruct R as [R ->];
      (assert (f = false) as ->; [|cbn [negb] in C; injection C as <- <-; auto]).
      all: rewrite <- Ef; unfold known in R; apply (wide_back cfg snap _ (WidensSame _)) in R; destruct R as (c0 & L & ->);
        cbn [m_free mixed_of_committed]; unfold free_variable;
        destruct (mention_composed _ _ M) as (x0 & y0 & c' & fv0 & bv0 & red & L' & Sp); rewrite L in L'; injection L' as <-; rewrite Sp;
        destruct fv0 as [|v0 fv0]; [reflexivity|]; exfalso; apply (SyP _ _ _ Sw M); exists c0, x0, y0, v0, fv0, bv0, red; auto. }
    destruct Q as [[->| ->] ->]; injection E as <- <-; auto.
  Qed.
  Lemma told_no_rules n h t gs : (forall g, In g gs -> about_some g) -> t_concept t = None -> forall s r s',
    find_map (try_rule cfg snap fuel (ops n) own h t) gs s = Ok (r, s') -> r = None /\ s' = s.
  Proof.
    intros A T. induction gs as [|g gs IH]; intros s r s' E; cbn [find_map] in E; [injection E as <- <-; auto|].
    unfold or_else in E. apply sb in E. destruct E as (x & s1 & E1 & E).
    destruct (told_unruled _ _ _ _ _ _ _ (A g (or_introl eq_refl)) T E1) as [-> ->].
    exact (IH (fun g J => A g (or_intror J)) _ _ _ E).
  Qed.

  (** *** Expressions are put together *)
  Definition associates (n : nat) : Prop := forall ws t s a s', told ws t -> good s -> o_assoc (ops n) own t s = Ok (a, s') -> good s' /\ a = ARight.
  Lemma told_side n (side : associativity -> tree -> tree -> text) (pick : tree -> tree -> tree) ws t s x s' :
    associates n -> (forall a l r, bare (side a l r) = bare (display l) ++ c_space :: bare (display r)) ->
    (pick = (fun l r => l) \/ pick = (fun l r => r)) -> told ws t -> good s ->
    (if existsb is_whitespace (display t) then
       match t_exp t with None => sret (display t) | Some (l, r) => sbind (o_assoc (ops n) own (pick l r)) (fun a => sret (side a l r)) end
     else sret (display t)) s = Ok (x, s') -> good s' /\ bare x = joined ws.
  Proof.
    intros As Sd Pk T G E. pose proof (told_shown _ _ T) as D.
    destruct (existsb is_whitespace (display t)); [|injection E as <- <-; auto].
    destruct T as [w k kd S K|a b l r y A B X]; cbn [t_exp] in E; [injection E as <- <-; auto|].
    apply sb in E. destruct E as (q & s1 & E1 & [= <- <-]). split.
    - destruct Pk as [->| ->]; [exact (proj1 (As _ _ _ _ _ A G E1))|exact (proj1 (As _ _ _ _ _ B G E1))].
    - rewrite Sd, (told_shown _ _ A), (told_shown _ _ B). symmetry. exact (joined_app _ _ (told_some _ _ A) (told_some _ _ B)).
  Qed.
  Lemma told_joined n a b l r s x s' : associates n -> told a l -> told b r -> good s ->
    display_joint (ops n) own l r s = Ok (x, s') -> good s' /\ bare x = joined (a ++ b).
  Proof.
    intros As A B G E. unfold display_joint in E. apply sb in E. destruct E as (y & s1 & E1 & E).
    apply (told_side n display_joint_left (fun l r => r) a l) in E1; try assumption; [|now intros [] t u; unfold display_joint_left; try rewrite bare_parenthesise; rewrite bare_app|auto].
    destruct E1 as [G1 Y]. apply sb in E. destruct E as (z & s2 & E2 & [= <- <-]).
    apply (told_side n display_joint_right (fun l r => l) b r) in E2; try assumption; [|now intros [] t u; unfold display_joint_right; try rewrite bare_parenthesise; rewrite bare_app|auto].
    destruct E2 as [G2 Z]. split; [exact G2|]. rewrite joined_app by (eapply told_some; eassumption). rewrite bare_app, Y, <- Z. reflexivity.
  Qed.
  Lemma told_contracted n a b l r s t s' : associates n -> told a l -> told b r -> good s ->
    contract_pair cfg snap fuel (ops n) own l r s = Ok (t, s') -> good s' /\ told (a ++ b) t.
  Proof.
    intros As A B G E. unfold contract_pair in E. apply sb in E. destruct E as (c & s1 & C & E).
    destruct (told_alone _ _ _ _ _ _ _ A B C) as [-> ->]. apply sb in E. destruct E as (j & s1 & E1 & [= <- <-]).
    unfold smap in E1. apply sb in E1. destruct E1 as (x & s2 & E1 & [= <- <-]).
    destruct (told_joined _ _ _ _ _ _ _ _ As A B G E1) as (G1 & X). split; [exact G1|]. exact (told_branch _ _ _ _ _ A B X).
  Qed.
  Lemma told_combined n a b l r s t s' : associates n -> told a l -> told b r -> good s ->
    combine_ast cfg snap (ops n) own l r s = Ok (t, s') -> good s' /\ told (a ++ b) t.
  Proof.
    intros As A B G E. unfold combine_ast in E. apply sb in E. destruct E as (c & s1 & C & E).
    destruct (told_alone _ _ _ _ _ _ _ A B C) as [-> ->]. apply sb in E. destruct E as (j & s1 & E1 & [= <- <-]).
    unfold join in E1. apply sb in E1. destruct E1 as (x & s2 & E1 & [= <- <-]).
    destruct (told_joined _ _ _ _ _ _ _ _ As A B G E1) as (G1 & X). split; [exact G1|]. exact (told_branch _ _ _ _ _ A B X).
  Qed.

  (** *** Expressions are evaluated *)
  Lemma word_reduced n w k kd s r s' : sym w k -> good s -> o_reduce (ops n) own (TLeaf w (Some (Committed k)) kd) s = Ok (r, s') ->
    good s' /\ right_told [w] r.
  Proof.
    intros S G E. destruct (SyE _ _ S) as (z & v & En & _).
    destruct (own_reduce_leaf cfg snap fuel F N LC LR UL lab CI BL BI ON extra n _ _ _ _ _ _ _ _ En G E) as [G1 R]. split; [exact G1|].
    destruct r as [[u why]|].
    - destruct R as (q & Rq & L). destruct (SyR _ _ _ S Rq) as (v' & S'). exists [v']. split; [|exact (word_leaf _ _ _ S' L)].
      constructor; [|constructor]. exists k, q. split; [exact S|]. split; [exact S'|]. left. exact Rq.
    - constructor; [|constructor]. intros k' q S'. rewrite (SyI _ _ _ S' S). apply R.
  Qed.
  Lemma still_same w : (exists k, sym w k) -> still w -> steps w w.
  Proof. intros (k & S) H. exists k, k. split; [exact S|]. split; [exact S|]. right. split; [reflexivity|]. intros q. apply H, S. Qed.
  Lemma all_same ws : in_words ws -> Forall still ws -> Forall2 steps ws ws.
  Proof. intros H H'. induction H; inversion H'; subst; constructor; [now apply still_same|auto]. Qed.
  Lemma told_type ws t s ty s' : told ws t -> concrete_type_of_ast cfg snap own t s = Ok (ty, s') ->
    s' = s /\ forall cc, ty = Some cc -> exists w k, sym w k /\ built_in snap k cc.
  Proof.
    intros T E. unfold concrete_type_of_ast, concrete_type in E. destruct (told_concept _ _ T) as [Q|(w & k & -> & S & Q)]; rewrite Q in E.
    - injection E as <- <-. split; [reflexivity|]. discriminate.
    - apply lifted in E. destruct E as [E ->]. split; [reflexivity|]. intros cc ->. cbn [new_env e_delta] in E.
      apply (wide_type cfg snap _ (WidensSame _)) in E. destruct E as (n & [= <-] & B). eauto.
  Qed.
  Lemma words_kept ws x r : in_words ws -> le 2 (length ws) -> bare x = joined ws -> right_told ws r -> extra x r.
  Proof.
    intros S L X Q. apply ExIn; [exists ws; auto|]. intros ws' S' L' E.
    rewrite X in E. apply joined_one in E; [| exact (words_are _ S)|exact (words_are _ S')|destruct ws; cbn in L; [lia|discriminate]|destruct ws'; cbn in L'; [lia|discriminate]].
    subst ws'. exact Q.
  Qed.
  Lemma told_evaluated n : associates n /\ forall ws t s r s', told ws t -> good s -> o_reduce (ops n) own t s = Ok (r, s') -> good s' /\ right_told ws r.
  Proof.
    induction n as [|n [IHa IHr]]; [split; [intros ? ? ? ? ? ? ? E|intros ? ? ? ? ? ? ? E]; discriminate E|]. split.
    - intros ws t s a s' T G E. cbn [search step o_assoc] in E. unfold get_associativity in E.
      apply sb in E. destruct E as (c & s1 & E1 & E). apply lifted in E1. destruct E1 as [Ca ->].
      destruct c as [c|]; [|injection E as <- <-; auto]. destruct (BI _ _ Ca) as (as' & -> & Bk). pose proof (AsW _ Bk) as Sk.
      apply sb in E. destruct E as (at1 & s1 & E1 & E).
      destruct (own_tree cfg snap fuel F N LR n as' s at1 s1 (sym_elementary _ _ Sk) (proj1 G) E1) as (Lk & Q1 & U1).
      pose proof (good_untouched _ _ _ _ _ _ G Q1 U1) as G1. pose proof (word_leaf _ _ _ Sk Lk) as Tk.
      apply sb in E. destruct E as (t2 & s2 & E2 & E). destruct (told_combined _ _ _ _ _ _ _ _ IHa Tk T G1 E2) as [G2 T2].
      apply sb in E. destruct E as (r & s3 & E3 & E). destruct (IHr _ _ _ _ _ T2 G2 E3) as [G3 Q3].
      apply sb in E. destruct E as (ty & s4 & E4 & [= <- <-]). destruct r as [[u y]|]; [|injection E4 as <- <-; auto].
      destruct Q3 as (vs & St & Tu). destruct (told_type _ _ _ _ _ Tu E4) as [-> _]. split; [exact G3|].
      assert (Nc : t_concept u = None).
      { destruct (told_concept _ _ Tu) as [X|(w & k & -> & _)]; [exact X|]. apply same_length in St. cbn in St.
        pose proof (told_some _ _ T). destruct ws; [congruence|]. cbn in St. lia. }
      unfold concrete_type_of_ast in E4. rewrite Nc in E4. injection E4 as <-. reflexivity.
    - intros ws t s rr s' T G E. destruct T as [w k kd S K|ws vs l r x A B X]; [exact (word_reduced _ _ _ _ _ _ _ S G E)|].
      pose proof (told_two _ _ _ _ A B) as Lw. pose proof (proj2 (Forall_app _ _ _) (conj (told_words _ _ A) (told_words _ _ B))) as Sy.
      cbn [search step o_reduce] in E. unfold reduce in E.
      apply sb in E. destruct E as (cached & s1 & C & E). assert (s1 = s) as -> by (now injection C). destruct cached as [q|].
      { injection E as <- <-. split; [exact G|]. exact (ExOut _ _ (from_cache _ _ _ _ _ _ _ _ _ _ G C) _ Sy Lw X). }
      clear C. cbn [t_concept t_exp opt_then] in E. apply sb in E. destruct E as (cc' & s1 & [= <- <-] & E).
      apply sb in E. destruct E as (q & s1 & Er & E). apply sb in E. destruct E as ([] & s2 & Ei & E). injection E as <- <-.
      assert (Q : good s1 /\ right_told (ws ++ vs) q).
      { unfold or_else at 1 in Er. apply sb in Er. destruct Er as (o1 & s3 & [= <- <-] & Er).
        unfold reduce_pair, or_else in Er. apply sb in Er. destruct Er as (o1 & s3 & Ex & Er).
        assert (o1 = None /\ s3 = s) as [-> ->].
        { destruct B as [w1 k1 kd1 S1 K1|ws1 vs1 rl rr1 y A1 B1 X1]; cbn [t_exp opt_then] in Ex; [injection Ex as <- <-; auto|].
          unfold reduce_by_expanded_right_branch in Ex. apply sb in Ex. destruct Ex as (ty & s4 & Et & Ex).
          destruct (told_type _ _ _ _ _ A1 Et) as [-> TT].
          destruct ty as [cc|]; [|injection Ex as <- <-; auto]. destruct (TT _ eq_refl) as (w1 & k1 & Sw1 & Bk). pose proof (SyT _ _ _ Sw1 Bk) as Y.
          destruct cc; try (injection Ex as <- <-; auto); exfalso; apply Y; cbn; auto 9. }
        apply sb in Er. destruct Er as (o1 & s3 & Ex' & Er).
        assert (o1 = None /\ s3 = s) as [-> ->].
        { destruct A as [w1 k1 kd1 S1 K1|ws1 vs1 ll lr1 y A1 B1 X1]; cbn [t_exp opt_then] in Ex'; [injection Ex' as <- <-; auto|].
          unfold reduce_by_expanded_left_branch in Ex'. apply sb in Ex'. destruct Ex' as (ty & s4 & Et & Ex').
          destruct (told_type _ _ _ _ _ B1 Et) as [-> _].
          assert (V : is_leaf_variable ll = false) by (pose proof (told_vars _ _ A1) as V; destruct ll as [? ? []|]; try reflexivity; congruence).
          rewrite V, andb_false_r in Ex'. injection Ex' as <- <-. auto. }
        unfold recursively_reduce_pair in Er. apply sb in Er. destruct Er as (lr & s3 & E1 & Er).
        destruct (IHr _ _ _ _ _ A G E1) as [G3 R1].
        apply sb in Er. destruct Er as (br & s4 & E2 & Er). destruct (IHr _ _ _ _ _ B G3 E2) as [G4 R2].
        apply sb in Er. destruct Er as (h & s5 & E3 & Er).
        pose proof (new_red_good cfg snap fuel F N LC LR UL lab CI BL BI ON extra _ _ _ G4 E3) as G5.
        assert (K : forall ws' vs' l2 r2, Forall2 steps ws ws' -> Forall2 steps vs vs' -> told ws' l2 -> told vs' r2 -> forall p s'' rr,
          (t <~ contract_pair cfg snap fuel (ops n) own l2 r2 ;; p <~ partial_reason cfg p ;; sret (Some (t, p)))%search s5 = Ok (rr, s'') ->
          good s'' /\ right_told (ws ++ vs) rr).
        { intros ws' vs' l2 r2 Sk Sks Ol Rr p s'' q' Ek. apply sb in Ek. destruct Ek as (t2 & s8 & E4 & Ek).
          destruct (told_contracted _ _ _ _ _ _ _ _ IHa Ol Rr G5 E4) as [G8 Q2].
          apply sb in Ek. destruct Ek as (p' & s9 & E5 & [= <- <-]). split; [exact (partial_good cfg snap fuel F extra _ _ _ _ G8 E5)|].
          exists (ws' ++ vs'). split; [apply Forall2_app; assumption|exact Q2]. }
        assert (M : forall t', (match t_concept t' with Some c => ml_get (e_mask own) c | None => None end) = None).
        { intros t'. destruct (t_concept t'); reflexivity. }
        rewrite !M in Er.
        destruct lr as [[lt lwhy]|], br as [[rt' rwhy]|].
        + destruct R1 as (ws' & Sw & Tw), R2 as (vs' & Sv & Tv). exact (K _ _ _ _ Sw Sv Tw Tv _ _ _ Er).
        + destruct R1 as (ws' & Sw & Tw). exact (K _ _ _ _ Sw (all_same _ (told_words _ _ B) R2) Tw B _ _ _ Er).
        + destruct R2 as (vs' & Sv & Tv). exact (K _ _ _ _ (all_same _ (told_words _ _ A) R1) Sv A Tv _ _ _ Er).
        + apply sb in Er. destruct Er as (t2 & s6 & E4 & Er).
          destruct (told_contracted _ _ _ _ _ _ _ _ IHa A B G5 E4) as [G6 P].
          apply sb in Er. destruct Er as (gs & s7 & E5 & Er). destruct (told_generalisations _ _ P _ _ _ E5) as [Ab ->].
          apply sb in Er. destruct Er as (gs' & s7 & E6 & Er). destruct (shuffle_good cfg snap fuel F extra _ _ _ _ G6 E6) as [G7 Sh].
          assert (T2 : t_concept t2 = None).
          { destruct (told_concept _ _ P) as [T2|(k0 & w0 & Q0 & _)]; [exact T2|]. rewrite Q0 in Lw. cbn in Lw. lia. }
          destruct (told_no_rules _ _ _ gs' (fun g J => Ab g (Sh g J)) T2 _ _ _ Er) as [-> ->]. split; [exact G7|]. apply Forall_app. auto. }
      destruct Q as [G1 Q]. split; [|exact Q]. exact (kept_answer _ _ _ _ _ _ _ _ _ _ _ eq_refl G1 (words_kept _ _ _ Sy Lw X Q) Ei).
  Qed.

  (** *** To the end *)
  Definition ended (w v : text) : Prop := exists k z, sym w k /\ ends snap k z v /\ sym v z.
  Lemma ended_here w : (exists k, sym w k) -> still w -> ended w w.
  Proof.
    intros (k & S) H. exists k, k. split; [exact S|]. split; [|exact S]. destruct (SyE _ _ S) as (z & v & En & Sv).
    destruct En as [z w' Pz Nr|z cc w' B Sz|k w' q z v Pz R En].
    - rewrite (SyN _ _ _ S Sv). now constructor.
    - rewrite (SyN _ _ _ S Sv). econstructor; eassumption.
    - destruct (H _ _ S R).
  Qed.
  Lemma ended_next w v u : steps w v -> ended v u -> ended w u.
  Proof.
    intros (k & l & Sw & Sv & [R|[-> _]]) (l' & z & Sv' & En & Sz).
    - rewrite (SyI _ _ _ Sv' Sv) in En. exists k, z. split; [exact Sw|]. split; [|exact Sz].
      destruct (SyE _ _ Sw) as (z' & v' & En' & _).
      destruct En' as [z0 w' Pz Nr|z0 cc w' B S0|k w' q z0 v0 Pz R' En']; [destruct (Nr _ R)|destruct (built_still _ _ _ _ B R)|].
      exact (EndsLater snap _ _ _ _ _ Pz R En).
    - rewrite (SyN _ _ _ Sw Sv). exists l', z. auto.
  Qed.
  Lemma ended_on w v u : ended w v -> ended v u -> ended w u.
  Proof.
    intros (k & z & S & En & Sz) (z' & y & Sv & En' & Sy). rewrite (SyI _ _ _ Sv Sz) in En'.
    pose proof (proj2 (ends_settled snap _ _ _ En)) as Nr. exists k, z. split; [exact S|].
    destruct En' as [z0 w' Pz _|z0 cc w' B S0|k0 w' q z0 v0 Pz R' En']; [| |destruct (Nr _ R')].
    - rewrite (SyN _ _ _ Sy Sz). auto.
    - rewrite (SyN _ _ _ Sy Sz). auto.
  Qed.
  Lemma all_next {X Y Z} (P : X -> Y -> Prop) (Q : Y -> Z -> Prop) (R : X -> Z -> Prop) ws : (forall w v u, P w v -> Q v u -> R w u) ->
    forall vs us, Forall2 P ws vs -> Forall2 Q vs us -> Forall2 R ws us.
  Proof.
    intros H. induction ws as [|w ws IH]; intros vs us A B; inversion A; subst; inversion B; subst; constructor; eauto.
  Qed.
  Lemma told_normal n : forall ws t why s r why' s', told ws t -> good s ->
    o_nf (ops n) own t why s = Ok ((r, why'), s') -> good s' /\ exists vs, told vs r /\ Forall2 ended ws vs.
  Proof.
    induction n as [|n IH]; intros ws t why s r why' s' R G E; [discriminate|]. pose proof (told_words _ _ R) as Sy.
    cbn [search step o_nf] in E. unfold normal_form in E. apply sb in E. destruct E as (rr & s1 & Er & E).
    destruct (proj2 (told_evaluated n) _ _ _ _ _ R G Er) as [G1 Q]. destruct rr as [[u reason]|].
    - destruct Q as (vs & St & Ru). destruct (IH _ _ _ _ _ _ _ Ru G1 E) as (G2 & zs & Rz & En). split; [exact G2|].
      exists zs. split; [exact Rz|]. exact (all_next _ _ _ _ ended_next _ _ St En).
    - injection E as <- _ <-. split; [exact G1|]. exists ws. split; [exact R|]. clear R Er IH G G1.
      induction Q as [|w ws Hw _ IHq]; [constructor|]. inversion Sy; subst. constructor; [now apply ended_here|auto].
  Qed.

  (** *** The command *)
  Notation asked := (asked cfg snap fuel extra).
  Lemma c_type ws t c r c' : told ws t -> asked c -> c_concrete_type_of cfg t c = Ok (r, c') ->
    c' = c /\ exists ty, r = Val ty /\ forall cc, ty = Some cc -> exists w k, sym w k /\ built_in snap k cc.
  Proof.
    intros T H E. unfold c_concrete_type_of, c_concrete_type in E. destruct (told_concept _ _ T) as [Q|(w & k & -> & S & Q)]; rewrite Q in E.
    - injection E as <- <-. split; [reflexivity|]. exists None. split; [reflexivity|]. discriminate.
    - apply lift_clean in E; [|apply clean_type]. destruct E as (-> & ty & -> & Ty). split; [reflexivity|].
      exists ty. split; [reflexivity|]. intros cc ->. destruct H as (Sn & D & _). rewrite Sn, D in Ty.
      apply (wide_type cfg snap _ (WidensSame _)) in Ty. destruct Ty as (n & [= <-] & B). eauto.
  Qed.
  Lemma told_called n : forall ws vs l r c x c', told ws l -> told vs r -> asked c ->
    snd (calls cfg fuel n) l r c = Ok (x, c') -> asked c' /\ x = Fail CannotReduceFurther.
  Proof.
    induction n as [|n IH]; intros ws vs l r c x c' A B H E; [discriminate|]. cbn [calls snd] in E. unfold call_pair_step in E.
    pose proof (search_clean cfg snap fuel fuel) as Cl.
    apply bind_back in E. destruct E as (ty & c1 & E1 & E). destruct (c_type _ _ _ _ _ A H E1) as (-> & ty' & -> & T).
    apply bind_back in E. destruct E as (done & c1 & E2 & E).
    assert (done = Val None /\ c1 = c) as [-> ->].
    { destruct ty' as [cc|]; [|injection E2 as <- <-; auto]. destruct (T _ eq_refl) as (w & k & Sw & Bk). pose proof (SyT _ _ _ Sw Bk) as X.
      destruct cc; try (injection E2 as <- <-; auto); exfalso; apply X; cbn; auto 9. }
    apply bind_back in E. destruct E as (ty2 & c1 & E3 & E). destruct (c_type _ _ _ _ _ B H E3) as (-> & ty2' & -> & T2).
    assert (X : opt_cct_eqb (Some CReduction) ty2' = false).
    { destruct ty2' as [cc|]; [|reflexivity]. destruct (T2 _ eq_refl) as (w & k & Sw & Bk). pose proof (SyT _ _ _ Sw Bk) as X.
      destruct cc; try reflexivity; exfalso; apply X; cbn; auto 9. }
    rewrite X in E. clear X. unfold reduce_and_call_pair in E.
    assert (RD : forall ws t c r c', told ws t -> asked c -> c_reduce cfg fuel t c = Ok (r, c') ->
      asked c' /\ exists r', r = Val r' /\ match r' with Some (u, _) => exists us, told us u | None => True end).
    { clear - SyW SyS SyE SyR SyI SyN SyT SyP SyC AsW UN ExOut ExIn F N LC LR UL CI BL BI ON HK Cl.
      intros ws t c r c' T H E. unfold c_reduce in E. assert (S := proj1 H).
      apply (asked_search cfg snap fuel extra _ (fun r => match r with Some (t, _) => exists ks', told ks' t | None => True end)) in E; [|exact H| |].
      - destruct E as (H1 & r' & -> & Q). split; [exact H1|]. exists r'. auto.
      - unfold ops_of. rewrite S. apply (oc_reduce _ Cl).
      - intros s q s' G X. unfold ops_of in X. rewrite S in X. destruct (proj2 (told_evaluated _) _ _ _ _ _ T G X) as (G1 & Q).
        split; [exact G1|]. destruct q as [[q why]|]; [|exact I]. destruct Q as (us & _ & R'). eauto. }
    apply bind_back in E. destruct E as (lr & c1 & E4 & E). destruct (RD _ _ _ _ _ A H E4) as (H1 & lr' & -> & R1).
    apply bind_back in E. destruct E as (rr & c2 & E5 & E). destruct (RD _ _ _ _ _ B H1 E5) as (H2 & rr' & -> & R2).
    destruct lr' as [[l' why]|], rr' as [[r' why']|].
    - destruct R1 as (ws' & A'), R2 as (vs' & B'). exact (IH _ _ _ _ _ _ _ A' B' H2 E).
    - destruct R1 as (ws' & A'). exact (IH _ _ _ _ _ _ _ A' B H2 E).
    - destruct R2 as (vs' & B'). exact (IH _ _ _ _ _ _ _ A B' H2 E).
    - injection E as <- <-. auto.
  Qed.
  Lemma told_inferred n ws t s r s' : told ws t -> good s ->
    find_examples_of_inferred_reduction cfg snap fuel (ops n) own t s = Ok (r, s') -> good s' /\ r = None.
  Proof.
    intros R G E. pose proof G as (Q & So & Fi).
    destruct (infers_nothing_for cfg snap fuel F N LC LR UL lab CI BL BI ON _ _ _ _ _
      (quiet_laws cfg snap fuel F N LC LR UL lab CI BL BI ON)) with (n := n) (e := own) (o := @None nat) (t := t) (s := s) (r := r) (s' := s')
      as (-> & H2 & U2); try assumption.
    - intros q X. exact (proj1 X).
    - intros e X. exact (proj1 X).
    - apply own_simple.
    - intros h d q e' q' Hh Wd Hq Eq. exact (own_spawn cfg snap fuel _ _ _ _ _ Hh Wd Hq Eq).
    - intros c q u q' Bc Hq Eq. exact (proj2 (own_tree cfg snap fuel F N LR _ _ _ _ _ (or_introl (ex_intro _ _ Bc)) Hq Eq)).
    - intros k _. apply UN.
    - intros e' Se'. exact (told_inert _ _ _ Se' R).
    - split; [exact (good_untouched _ _ _ _ _ _ G H2 U2)|reflexivity].
  Qed.
  Definition answer_words (ws : list text) (a : text) : Prop := exists vs, Forall2 ended ws vs /\ bare a = joined vs.
  Lemma words_called n : forall ws t c a c', told ws t -> le 2 (length ws) -> asked c ->
    fst (calls cfg fuel n) t c = Ok (a, c') -> asked c' /\ exists x, a = Val x /\ answer_words ws x.
  Proof.
    induction n as [|n IH]; intros ws t c a c' T L H E; [discriminate|].
    inversion T as [|us vs l r x A B X]; subst; [cbn in L; lia|]. cbn [calls fst] in E. unfold call_step in E.
    pose proof (search_clean cfg snap fuel fuel) as Cl. cbn [t_concept t_exp] in E.
    apply bind_back in E. destruct E as (o & c1 & [= <- <-] & E).
    unfold on_irreducible in E. apply bind_back in E. destruct E as (z & c1 & E1 & E).
    apply catch_back in E1. destruct E1 as (z1 & -> & E1).
    destruct (told_called _ _ _ _ _ _ _ _ A B H E1) as [H1 ->].
    apply bind_back in E. destruct E as (z & c2 & E2 & E).
    apply catch_back in E2. destruct E2 as (z1 & -> & E2). unfold try_reducing_then_call in E2.
    apply bind_back in E2. destruct E2 as (nf & c3 & E3 & E2). unfold c_normal_form in E3. assert (S1 := proj1 H1).
    apply (asked_search cfg snap fuel extra _ (fun q => exists zs, told zs q /\ Forall2 ended (us ++ vs) zs)) in E3; [|exact H1| |].
    2:{ unfold ops_of. rewrite S1. apply sclean_smap, (oc_nf _ Cl). }
    2:{ intros s q s' G Y. unfold ops_of in Y. rewrite S1 in Y. unfold smap in Y. apply sb in Y.
        destruct Y as ([a' why] & s1 & Y & [= <- <-]). cbn [fst]. exact (told_normal _ _ _ _ _ _ _ _ T G Y). }
    destruct E3 as (H3 & nf' & -> & zs & Rz & En).
    destruct (key_eqb_spec (t_key nf') (t_key (TBranch (Some x) None l r [] []))) as [Ke|_].
    - apply bind_back in E2. destruct E2 as (inf & c4 & E4 & E2). unfold c_inferred in E4. assert (S3 := proj1 H3).
      apply (asked_search cfg snap fuel extra _ (fun r => r = None)) in E4; [|exact H3| |].
      2:{ unfold ops_of. rewrite S3. apply inferred_clean, Cl. }
      2:{ intros s q s' G Y. unfold ops_of in Y. rewrite S3 in Y. exact (told_inferred _ _ _ _ _ _ T G Y). }
      destruct E4 as (H4 & q & -> & ->). injection E2 as <- <-.
      apply bind_back in E. destruct E as (t & c5 & E5 & E). unfold c_contract in E5. assert (S4 := proj1 H4).
      apply (asked_search cfg snap fuel extra _ (told (us ++ vs))) in E5; [|exact H4| |].
      2:{ unfold ops_of. rewrite S4. apply contract_pair_clean, Cl. }
      2:{ intros s q s' G Y. unfold ops_of in Y. rewrite S4 in Y. exact (told_contracted _ _ _ _ _ _ _ _ (proj1 (told_evaluated _)) A B G Y). }
      destruct E5 as (H5 & t' & -> & Rt'). injection E as <- <-. split; [exact H5|]. eexists. split; [reflexivity|].
      exists (us ++ vs). split; [|exact (told_shown _ _ Rt')].
      assert (Z : zs = us ++ vs); [|rewrite Z in En; exact En].
      inversion Rz as [? ? ? ? ? Q1 Q2|? ? ? ? y A' B' Y Q1 Q2]; subst; [discriminate Ke|]. injection Ke as ->.
      apply joined_one; [exact (words_are _ (told_words _ _ Rz))|exact (words_are _ (told_words _ _ T))|exact (told_some _ _ Rz)|exact (told_some _ _ T)|congruence].
    - unfold with_pin in E2. apply obind_ok in E2. destruct E2 as ([r1 c4] & E4 & [= <- <-]).
      assert (L' : le 2 (length zs)) by (rewrite <- (same_length _ _ _ En); exact L).
      apply (IH _ _ _ _ _ Rz L') in E4; [|exact H3]. destruct E4 as (H4 & y & -> & (ys & En' & Y)). injection E as <- <-.
      split; [exact H4|]. exists y. split; [reflexivity|]. exists ys. split; [exact (all_next _ _ _ _ ended_on _ _ En En')|exact Y].
  Qed.

  (** *** Reading *)
  Lemma pair_put ws vs l r c x c' : told ws l -> told vs r -> asked c -> ast_from_pair cfg fuel l r c = Ok (x, c') ->
    asked c' /\ exists t, x = Val t /\ told (ws ++ vs) t.
  Proof.
    intros A B H E. pose proof (search_clean cfg snap fuel fuel) as Cl. assert (S := proj1 H).
    unfold ast_from_pair in E. apply bind_back in E. destruct E as (ty & c2 & E3 & E). destruct (c_type _ _ _ _ _ B H E3) as (-> & ty' & -> & _).
    apply bind_back in E. destruct E as (uu & c2 & E4 & E).
    assert (uu = Val tt /\ c2 = c) as [-> ->].
    { assert (V : is_leaf_variable l = false) by (pose proof (told_vars _ _ A) as V; destruct l as [? ? []|]; try reflexivity; congruence).
      rewrite V, andb_false_r in E4. injection E4 as <- <-. auto. }
    unfold c_combine in E. apply (asked_search cfg snap fuel extra _ (told (ws ++ vs))) in E; [exact E|exact H| |].
    - unfold Parser.ops_of. rewrite S. apply combine_ast_clean, Cl.
    - intros s q s' G X. unfold Parser.ops_of in X. rewrite S in X. exact (told_combined _ _ _ _ _ _ _ _ (proj1 (told_evaluated _)) A B G X).
  Qed.
  Definition read (w : text) : Prop := exists k, means snap w k /\ sym w k.
  Lemma words_read c0 p n : c_snap c0 = snap -> c_delta c0 = delta_default -> spells (kind_of_symbol cfg fuel c0) p n -> forall c r c',
    Forall read (words_of p) -> asked c -> ast_from_nested_syntax cfg fuel n c = Ok (r, c') ->
    asked c' /\ exists t, r = Val t /\ told (words_of p) t.
  Proof.
    intros S0 D0 X. induction X as [w k K|a b na nb s Xa IHa Xb IHb|p n s X IH]; intros c r c' Sy H E.
    - assert (H' := H). destruct H' as (S & D & _). inversion Sy as [|? ? (i & Mw & Sw) _]; subst.
      rewrite (kind_same cfg fuel c0 c) in K by congruence. rewrite <- S in Mw.
      destruct (leaf_known _ _ _ _ _ _ _ _ F D Mw K E) as (lk & -> & Nl & ->). split; [exact H|].
      eexists. split; [reflexivity|]. now constructor.
    - cbn [words_of] in Sy. apply Forall_app in Sy. destruct Sy as [Sa Sb].
      cbn [ast_from_nested_syntax] in E. apply bind_back in E. destruct E as (ts & c1 & E1 & E).
      apply bind_back in E1. destruct E1 as (ta & c2 & Ea & E1). destruct (IHa _ _ _ Sa H Ea) as (H2 & ta' & -> & Ra).
      apply bind_back in E1. destruct E1 as (tb & c3 & Eb & E1). apply bind_back in Eb. destruct Eb as (tb' & c4 & Eb & E2).
      destruct (IHb _ _ _ Sb H2 Eb) as (H4 & tb'' & -> & Rb). injection E2 as <- <-. injection E1 as <- <-.
      exact (pair_put _ _ _ _ _ _ _ Ra Rb H4 E).
    - cbn [ast_from_nested_syntax] in E. apply bind_back in E. destruct E as (ts & c1 & E1 & E).
      apply bind_back in E1. destruct E1 as (ta & c2 & Ea & E1).
      destruct (IH _ _ _ Sy H Ea) as (H2 & ta' & -> & Ra). injection E1 as <- <-.
      unfold parse_list in E. cbn in E. injection E as <- <-. eauto.
  Qed.
  Lemma word_expanded n w k kd s t s' : sym w k -> good s -> o_expand (ops n) own (TLeaf w (Some (Committed k)) kd) s = Ok (t, s') -> good s' /\ told [w] t.
  Proof.
    intros S G E. destruct (own_expand cfg snap fuel F N LR extra _ _ _ _ _ _ _ (sym_elementary _ _ S) G E) as [G1 L].
    split; [exact G1|exact (word_leaf _ _ _ S L)].
  Qed.
  Lemma told_expanded n : forall ws u s t s', told ws u -> good s -> o_expand (ops n) own u s = Ok (t, s') -> good s' /\ told ws t.
  Proof.
    induction n as [|n IH]; intros ws u s t s' R G E; [discriminate|].
    destruct R as [w k kd S K|ws vs l r x A B X]; [exact (word_expanded _ _ _ _ _ _ _ S G E)|].
    cbn [search step o_expand] in E. unfold expand in E. cbn [t_concept t_exp] in E.
    apply sb in E. destruct E as (l' & s1 & E1 & E). destruct (IH _ _ _ _ _ A G E1) as [G1 A1].
    apply sb in E. destruct E as (r' & s2 & E2 & E). destruct (IH _ _ _ _ _ B G1 E2) as [G2 B2].
    exact (told_combined _ _ _ _ _ _ _ _ (proj1 (told_evaluated _)) A1 B2 G2 E).
  Qed.
  Lemma top_expanded n ws vs l r s t s' : told ws l -> told vs r -> good s -> o_expand (ops n) own (new_pair l r) s = Ok (t, s') ->
    good s' /\ told (ws ++ vs) t.
  Proof.
    intros A B G E. destruct n as [|n]; [discriminate|]. cbn [search step o_expand] in E. unfold expand in E.
    assert (X : t_concept (new_pair l r) = None /\ t_exp (new_pair l r) = Some (l, r)).
    { unfold new_pair, branch. match goal with |- context [pair_vars ?x ?y] => destruct (pair_vars x y) end. auto. }
    destruct X as [Xc Xe]. rewrite Xc, Xe in E.
    apply sb in E. destruct E as (l' & s1 & E1 & E). destruct (told_expanded _ _ _ _ _ _ A G E1) as [G1 A1].
    apply sb in E. destruct E as (r' & s2 & E2 & E). destruct (told_expanded _ _ _ _ _ _ B G1 E2) as [G2 B2].
    exact (told_combined _ _ _ _ _ _ _ _ (proj1 (told_evaluated _)) A1 B2 G2 E).
  Qed.
  Lemma no_variables ws t : told ws t -> forall c, create_variable_concepts t c = Ok (Val t, c).
  Proof.
    induction 1 as [w k kd S K|ws vs l r x A IHa B IHb X]; intros c.
    - destruct kd; try congruence; reflexivity.
    - cbn [create_variable_concepts]. unfold cbind. rewrite IHa. cbn [obind]. rewrite IHb. reflexivity.
  Qed.
  Lemma words_run p c r c' : compound p -> Forall read (words_of p) -> asked c ->
    run_command cfg fuel (spelled p) c = Ok (r, c') ->
    asked c' /\ exists x, r = Val x /\ answer_words (words_of p) x.
  Proof.
    intros Cp Sy H E. unfold run_command in E. pose proof (search_clean cfg snap fuel fuel) as Cl.
    apply bind_back in E. destruct E as (t & c1 & E1 & E). assert (H' := H). destruct H' as (S & D & _).
    destruct p as [w|a b]; [destruct Cp|].
    assert (Pr : proper (Both a b)) by (intros u J; apply (proj1 (Forall_forall _ _) Sy) in J; destruct J as (k & _ & Su); exact (SyW _ _ Su)).
    cbn [words_of] in Sy. apply Forall_app in Sy. destruct Sy as [Sa Sb].
    destruct (both_read _ _ _ _ _ _ _ D Pr E1) as (na & nb & Xa & Xb & E2). clear E1.
    apply bind_back in E2. destruct E2 as (ta & c2 & Ea & E2). destruct (words_read _ _ _ S D Xa _ _ _ Sa H Ea) as (H2 & ta' & -> & Ra).
    apply bind_back in E2. destruct E2 as (tb & c3 & Eb & E2). destruct (words_read _ _ _ S D Xb _ _ _ Sb H2 Eb) as (H3 & tb' & -> & Rb).
    injection E2 as <- <-. assert (S3 := proj1 H3).
    apply bind_back in E. destruct E as (t & c4 & E2 & E). unfold c_expand in E2.
    apply (asked_search cfg snap fuel extra _ (told (words_of a ++ words_of b))) in E2; [|exact H3| |].
    2:{ unfold ops_of. rewrite S3. apply (oc_expand _ Cl). }
    2:{ intros s q s' G X. unfold ops_of in X. rewrite S3 in X. exact (top_expanded _ _ _ _ _ _ _ _ Ra Rb G X). }
    destruct E2 as (H4 & t' & -> & Rt). apply bind_back in E. destruct E as (q & c5 & E2 & E).
    rewrite (no_variables _ _ Rt) in E2. cbn [obind] in E2. injection E2 as <- <-.
    exact (words_called _ _ _ _ _ _ Rt (told_two _ _ _ _ Ra Rb) H4 E).
  Qed.
  Lemma words_executed p c x c' : ready c -> compound p -> Forall read (words_of p) -> asked c ->
    execute cfg fuel (spelled p) c = Ok (x, c') ->
    answer_words (words_of p) x /\ c_snap c' = snap /\ c_delta c' = delta_default /\
      good (start_state (c_cache c') (c_tick c')).
  Proof.
    intros Rd Cp Sy H E. destruct (execute_run cfg fuel _ c x c' F Rd E) as (z & c1 & E1 & _ & An & _).
    destruct (words_run _ _ _ _ Cp Sy H E1) as ((S1 & D1 & _ & G1) & y & -> & Av). split; [rewrite An; exact Av|].
    destruct (execute_quiet _ _ _ _ _ _ _ _ Rd E E1) as (A1 & A2 & A3 & _); [unfold recorded; rewrite D1; reflexivity|].
    destruct H as (S & D & _). rewrite A1, A2, A3. split; [exact S|]. split; [exact D|]. exact G1.
  Qed.

  (** ** The brackets left out *)
  Lemma word_right w k kd c r c' : sym w k -> kd <> LVariable -> asked c -> c_assoc cfg fuel (TLeaf w (Some (Committed k)) kd) c = Ok (r, c') ->
    asked c' /\ r = Val ARight.
  Proof.
    intros Sw Kd H E. unfold c_assoc in E. assert (S := proj1 H). pose proof (search_clean cfg snap fuel fuel) as Cl.
    apply (asked_search cfg snap fuel extra _ (fun a => a = ARight)) in E; [|exact H| |].
    - destruct E as (H1 & a & -> & ->). auto.
    - unfold Parser.ops_of. rewrite S. apply (oc_assoc _ Cl).
    - intros s a s' G X. unfold Parser.ops_of in X. rewrite S in X. exact (proj1 (told_evaluated _) _ _ _ _ _ (ToldWord _ _ _ Sw Kd) G X).
  Qed.
  Definition one (t : tree) : Prop := exists w k kd, sym w k /\ t = TLeaf w (Some (Committed k)) kd /\ kd <> LVariable.
  Definition built (ts : list tree) (t : tree) : Prop := told (map display ts) t.
  Lemma built_one t : one t -> built [t] t.
  Proof. intros (w & k & kd & Sw & -> & Kd). exact (ToldWord _ _ _ Sw Kd). Qed.
  Lemma one_right t c r c' : one t -> asked c -> c_assoc cfg fuel t c = Ok (r, c') -> asked c' /\ r = Val ARight.
  Proof. intros (w & k & kd & Sw & -> & Kd). exact (word_right _ _ _ _ _ _ Sw Kd). Qed.
  Lemma built_more l ts r c x c' : one l -> built ts r -> asked c -> c_combine cfg fuel l r c = Ok (x, c') ->
    asked c' /\ exists t, x = Val t /\ built (l :: ts) t.
  Proof.
    intros O R H E. apply built_one in O. unfold c_combine in E. assert (S := proj1 H). pose proof (search_clean cfg snap fuel fuel) as Cl.
    apply (asked_search cfg snap fuel extra _ (built (l :: ts))) in E; [exact E|exact H| |].
    - unfold Parser.ops_of. rewrite S. apply combine_ast_clean, Cl.
    - intros s a s' G X. unfold Parser.ops_of in X. rewrite S in X. exact (told_combined _ _ _ _ _ _ _ _ (proj1 (told_evaluated _)) O R G X).
  Qed.
  Lemma leaves_one (P : nat -> Prop) ws : Forall (fun w => exists k, means snap w k /\ sym w k /\ P k) ws -> exists ks, Forall2 (means snap) ws ks /\
    forall ts, Forall2 Checks.word_leaf (combine ws ks) ts -> map display ts = ws /\ Forall one ts /\ forall t, In t ts -> exists k, t_concept t = Some (Committed k) /\ P k.
  Proof.
    induction 1 as [|w ws (k & M & Sw & Pk) _ (ks & Ms & IH)].
    - exists []. split; [constructor|]. intros ts W. inversion W. split; [reflexivity|]. split; [constructor|]. intros t [].
    - exists (k :: ks). split; [constructor; assumption|]. intros ts W. inversion W as [|? t ? ts' (lk & -> & Nv) W']; subst.
      destruct (IH _ W') as (Q & O & I). split; [cbn; f_equal; exact Q|]. split; [constructor; [exists w, k, lk; auto|exact O]|].
      intros t [<-|J]; [exists k; auto|exact (I _ J)].
  Qed.
  Lemma flat_long ws c r c' : le 3 (length ws) -> Forall (fun w => exists k, means snap w k /\ sym w k /\ ~ ranked snap k) ws -> asked c ->
    run_command cfg fuel (joined ws) c = Ok (r, c') ->
    asked c' /\ exists x, r = Val x /\ answer_words ws x.
  Proof.
    intros Lw Sy H E. unfold run_command in E. pose proof (search_clean cfg snap fuel fuel) as Cl.
    apply bind_back in E. destruct E as (t & c1 & E1 & E). assert (H' := H). destruct H' as (S & D & _).
    assert (Wd : Forall word ws) by (eapply Forall_impl; [|exact Sy]; intros w (k & _ & Sw & _); exact (SyW _ _ Sw)).
    destruct (leaves_one _ _ Sy) as (ks & Me & LO). clear Sy.
    destruct ws as [|w1 [|w2 [|w3 ws]]]; cbn in Lw; try lia.
    apply (flat_read _ _ _ _ _ _ _ _ D Wd) in E1. destruct E1 as (kinds & K & E1).
    apply bind_back in E1. destruct E1 as (ts & c2 & E2 & E1). rewrite <- S in Me.
    apply (flat_leaves cfg fuel _ ks _ _ _ _ F D Me K) in E2. destruct E2 as (-> & ts' & -> & W). rewrite S in Me.
    destruct (LO _ W) as (Dw & Os & Un). clear LO W.
    destruct ts' as [|t1 [|t2 [|t3 ts']]]; try discriminate Dw.
    apply (flat_list cfg fuel F asked (asked_shuffle cfg snap fuel F extra) one one_right built built_one built_more) in E1; [|exact Os|exact H|].
    2:{ intros t0 J. destruct (Un _ J) as (k & Ck & R). exists (Committed k). split; [exact Ck|]. intros X.
        apply (related_ranked cfg snap F LR HK BI _ _ S D) in X. destruct X as (k' & [= <-] & X). exact (R X). }
    destruct E1 as (H3 & u & -> & Ru). unfold built in Ru. rewrite Dw in Ru. assert (S3 := proj1 H3).
    apply bind_back in E. destruct E as (t & c4 & E2 & E). unfold c_expand in E2.
    apply (asked_search cfg snap fuel extra _ (told (w1 :: w2 :: w3 :: ws))) in E2; [|exact H3| |].
    2:{ unfold ops_of. rewrite S3. apply (oc_expand _ Cl). }
    2:{ intros s q s' G X. unfold ops_of in X. rewrite S3 in X. exact (told_expanded _ _ _ _ _ _ Ru G X). }
    destruct E2 as (H4 & t' & -> & Rt). apply bind_back in E. destruct E as (q & c5 & E2 & E).
    rewrite (no_variables _ _ Rt) in E2. cbn [obind] in E2. injection E2 as <- <-.
    refine (words_called _ _ _ _ _ _ Rt _ H4 E). cbn. lia.
  Qed.
  Lemma flat_run ws c r c' : le 2 (length ws) -> Forall (fun w => exists k, means snap w k /\ sym w k /\ ~ ranked snap k) ws -> asked c ->
    run_command cfg fuel (joined ws) c = Ok (r, c') ->
    asked c' /\ exists x, r = Val x /\ answer_words ws x.
  Proof.
    intros Lw Sy H E. destruct (le_lt_dec 3 (length ws)) as [L3|L3]; [exact (flat_long _ _ _ _ L3 Sy H E)|].
    destruct ws as [|w [|v [|u ws]]]; cbn in Lw, L3; try lia.
    refine (words_run (Both (Word w) (Word v)) c r c' I _ H E). eapply Forall_impl; [|exact Sy]. intros y (k & M & Sk & _). exists k. auto.
  Qed.
  Lemma flat_executed ws c x c' : ready c -> le 2 (length ws) -> Forall (fun w => exists k, means snap w k /\ sym w k /\ ~ ranked snap k) ws -> asked c ->
    execute cfg fuel (joined ws) c = Ok (x, c') ->
    answer_words ws x /\ c_snap c' = snap /\ c_delta c' = delta_default /\
      good (start_state (c_cache c') (c_tick c')).
  Proof.
    intros Rd Lw Sy H E. destruct (execute_run cfg fuel _ c x c' F Rd E) as (z & c1 & E1 & _ & An & _).
    destruct (flat_run _ _ _ _ Lw Sy H E1) as ((S1 & D1 & _ & G1) & y & -> & Av). split; [rewrite An; exact Av|].
    destruct (execute_quiet _ _ _ _ _ _ _ _ Rd E E1) as (A1 & A2 & A3 & _); [unfold recorded; rewrite D1; reflexivity|].
    destruct H as (S & D & _). rewrite A1, A2, A3. split; [exact S|]. split; [exact D|]. exact G1.
  Qed.

  (** ** Some brackets left out *)
  Lemma told_same ws vs t : told ws t -> told vs t -> ws = vs.
  Proof.
    intros A B. apply joined_one; [exact (words_are _ (told_words _ _ A))|exact (words_are _ (told_words _ _ B))|exact (told_some _ _ A)|exact (told_some _ _ B)|].
    rewrite <- (told_shown _ _ A). exact (told_shown _ _ B).
  Qed.
  Definition any (t : tree) : Prop := exists ws, told ws t.
  Definition put (ts : list tree) (t : tree) : Prop := exists wss, Forall2 told wss ts /\ told (concat wss) t.
  Lemma any_right t c r c' : any t -> asked c -> c_assoc cfg fuel t c = Ok (r, c') -> asked c' /\ r = Val ARight.
  Proof.
    intros (ws & T) H E. unfold c_assoc in E. assert (S := proj1 H). pose proof (search_clean cfg snap fuel fuel) as Cl.
    apply (asked_search cfg snap fuel extra _ (fun a => a = ARight)) in E; [|exact H| |].
    - destruct E as (H1 & a & -> & ->). auto.
    - unfold Parser.ops_of. rewrite S. apply (oc_assoc _ Cl).
    - intros s a s' G X. unfold Parser.ops_of in X. rewrite S in X. exact (proj1 (told_evaluated _) _ _ _ _ _ T G X).
  Qed.
  Lemma put_one t : any t -> put [t] t.
  Proof. intros (ws & T). exists [ws]. split; [constructor; [exact T|constructor]|]. cbn. rewrite app_nil_r. exact T. Qed.
  Lemma put_more l ts r c x c' : any l -> put ts r -> asked c -> c_combine cfg fuel l r c = Ok (x, c') ->
    asked c' /\ exists t, x = Val t /\ put (l :: ts) t.
  Proof.
    intros (ws & O) (wss & W & R) H E. unfold c_combine in E. assert (S := proj1 H). pose proof (search_clean cfg snap fuel fuel) as Cl.
    apply (asked_search cfg snap fuel extra _ (put (l :: ts))) in E; [exact E|exact H| |].
    - unfold Parser.ops_of. rewrite S. apply combine_ast_clean, Cl.
    - intros s a s' G X. unfold Parser.ops_of in X. rewrite S in X. destruct (told_combined _ _ _ _ _ _ _ _ (proj1 (told_evaluated _)) O R G X) as [G1 T].
      split; [exact G1|]. exists (ws :: wss). split; [constructor; assumption|exact T].
  Qed.
  (** What a part is read as. *)
  Definition meant (o : outline) (t : tree) : Prop := told (terms_of o) t /\
    match o with Term _ => exists k, t_concept t = Some (Committed k) /\ ~ ranked snap k | Several _ => t_concept t = None end.
  Lemma meant_put os ts t : Forall2 meant os ts -> put ts t -> told (all_terms os) t.
  Proof.
    intros M (wss & W & T). enough (concat wss = all_terms os) as <- by exact T. clear T. revert os M.
    induction W as [|ws u wss us A _ IH]; intros os M; inversion M as [|o ? os' ? [B _] M']; subst; [reflexivity|].
    unfold all_terms in *. cbn [concat map]. rewrite (IH _ M'), (told_same _ _ _ A B). reflexivity.
  Qed.
  Lemma parts_related os ts c : Forall2 meant os ts -> asked c -> forall t x, In t ts -> t_concept t = Some x -> ~ related cfg c x.
  Proof.
    intros M (S & D & _). induction M as [|o u os us [_ B] _ IH]; intros t x [].
    - subst u. intros X R. apply (related_ranked cfg snap F LR HK BI _ _ S D) in R. destruct R as (k' & -> & R).
      destruct o as [w|os']; [destruct B as (k & Y & N'); rewrite X in Y; injection Y as ->; exact (N' R)|congruence].
    - apply IH. assumption.
  Qed.
  Lemma parts_any os ts : Forall2 meant os ts -> Forall any ts.
  Proof. induction 1 as [|o t os ts [A _] _ IH]; constructor; [exists (terms_of o); exact A|exact IH]. Qed.
  Lemma parts_terms os ts : Forall2 meant os ts -> (exists u, In u ts /\ t_concept u <> None) <-> exists w, In (Term w) os.
  Proof.
    induction 1 as [|o t os ts [_ B] _ IH]; [split; intros (x & J & _) || intros (x & []); destruct J|]. split.
    - intros (u & [<-|J] & X).
      + destruct o as [w|os']; [exists w; left; reflexivity|congruence].
      + destruct (proj1 IH) as (w & J'); [eauto|]. exists w. right. exact J'.
    - intros (w & [->|J]).
      + destruct B as (k & Y & _). exists t. split; [left; reflexivity|congruence].
      + destruct (proj2 IH) as (u & J' & X); [eauto|]. exists u. split; [right; exact J'|exact X].
  Qed.
  Definition telling (w : text) : Prop := exists k, means snap w k /\ sym w k /\ ~ ranked snap k.
  Lemma parts_long os ts c r c' : le 3 (length os) -> Forall2 meant os ts -> asked c -> parse_list cfg fuel ts c = Ok (r, c') ->
    asked c' /\ ((exists t, r = Val t /\ told (all_terms os) t /\ exists w, In (Term w) os) \/
                 (r = Fail AmbiguousExpression /\ ~ exists w, In (Term w) os)).
  Proof.
    intros L M H E. pose proof (same_length _ _ _ M) as Le. destruct ts as [|t1 [|t2 [|t3 ts]]]; cbn in Le; try lia.
    apply (any_list cfg fuel F asked (asked_shuffle cfg snap fuel F extra) any any_right put put_one put_more) in E;
      [|exact (parts_any _ _ M)|exact H|exact (parts_related _ _ _ M H)].
    destruct E as [H1 [(t & -> & P & X)|[-> X]]]; (split; [exact H1|]).
    - left. exists t. split; [reflexivity|]. split; [exact (meant_put _ _ _ M P)|]. apply (parts_terms _ _ M). exact X.
    - right. split; [reflexivity|]. intros Y. apply (parts_terms _ _ M) in Y. destruct Y as (u & J & Y). exact (Y (X _ J)).
  Qed.
  Lemma terms_two os : sized (Several os) -> le 2 (length (all_terms os)).
  Proof.
    assert (P : (forall o, sized o -> le 1 (length (terms_of o))) /\ forall os, (forall o, In o os -> sized o) -> le (length os) (length (all_terms os))).
    { apply outline_both.
      - intros w _. cbn. lia.
      - intros l IH S. apply sized_parts in S. destruct S as [L S]. specialize (IH S). change (terms_of (Several l)) with (all_terms l). lia.
      - intros _. cbn. lia.
      - intros o l Ho IH S. specialize (Ho (S o (or_introl eq_refl))). specialize (IH (fun x J => S x (or_intror J))).
        unfold all_terms in *. cbn [map concat length]. rewrite app_length. lia. }
    intros S. apply sized_parts in S. destruct S as [L S]. pose proof (proj2 P os S). lia.
  Qed.
  Lemma told_long ws t : told ws t -> le 2 (length ws) -> t_concept t = None.
  Proof. intros T L. destruct (told_concept _ _ T) as [X|(w & k & -> & _)]; [exact X|]. cbn in L. lia. Qed.
  Notation read_all := (fix all (ns : list nested) : CM (list tree) :=
    match ns with
    | [] => cret []
    | n :: ns => cbind (ast_from_nested_syntax cfg fuel n) (fun t => cbind (all ns) (fun ts => cret (t :: ts)))
    end).
  Definition part_read (o : outline) (n : nested) : Prop := sized o -> Forall telling (terms_of o) -> forall c r c', asked c ->
    ast_from_nested_syntax cfg fuel n c = Ok (r, c') ->
    asked c' /\ ((exists t, r = Val t /\ meant o t /\ unambiguous o) \/ (r = Fail AmbiguousExpression /\ ~ unambiguous o)).
  Definition parts_read (os : list outline) (ns : list nested) : Prop := (forall o, In o os -> sized o) -> Forall telling (all_terms os) ->
    forall c r c', asked c -> read_all ns c = Ok (r, c') ->
    asked c' /\ ((exists ts, r = Val ts /\ Forall2 meant os ts /\ forall o, In o os -> unambiguous o) \/
                 (r = Fail AmbiguousExpression /\ ~ forall o, In o os -> unambiguous o)).
  Lemma outline_parts c0 : c_snap c0 = snap -> c_delta c0 = delta_default ->
    (forall o n, shapes (kind_of_symbol cfg fuel c0) o n -> part_read o n) /\
    forall os ns, shapes_all (kind_of_symbol cfg fuel c0) os ns -> parts_read os ns.
  Proof.
    intros S0 D0.
    assert (HT : forall w k, kind_of_symbol cfg fuel c0 w = Ok k -> part_read (Term w) (from_concept_kind k w)).
    { intros w k K _ Sy c r c' H E. assert (H' := H). destruct H' as (S & D & _). inversion Sy as [|? ? (i & Mw & Sw & Nr) _]; subst.
      rewrite (kind_same cfg fuel c0 c) in K by congruence. rewrite <- S in Mw.
      destruct (leaf_known _ _ _ _ _ _ _ _ F D Mw K E) as (lk & -> & Nl & ->). split; [exact H|]. left.
      eexists. split; [reflexivity|]. split; [|constructor]. split; [exact (ToldWord _ _ _ Sw Nl)|]. exists i. auto. }
    assert (HS : forall os ns s, shapes_all (kind_of_symbol cfg fuel c0) os ns -> parts_read os ns -> part_read (Several os) (NParent ns s)).
    { intros os ns s _ IH Sz Sy c r c' H E. pose proof (terms_two _ Sz) as L2. apply sized_parts in Sz. destruct Sz as [L Sz].
      cbn [ast_from_nested_syntax] in E. apply bind_back in E. destruct E as (ts & c1 & E1 & E).
      destruct (IH Sz Sy _ _ _ H E1) as [H1 [(ts' & -> & M & Un)|[-> Un]]].
      2:{ destruct E as [-> ->]. split; [exact H1|]. right. split; [reflexivity|]. intros X. inversion X. auto. }
      pose proof (same_length _ _ _ M) as Le.
      destruct (le_lt_dec 3 (length os)) as [L3|L3].
      - destruct ts' as [|t1 [|t2 [|t3 ts']]]; cbn in Le; try lia. destruct (parts_long _ _ _ _ _ L3 M H1 E) as [H2 [(t & -> & T & W)|[-> W]]]; (split; [exact H2|]).
        + left. exists t. split; [reflexivity|]. split; [split; [exact T|exact (told_long _ _ T L2)]|]. constructor; auto.
        + right. split; [reflexivity|]. intros X. inversion X as [|? [Y|Y] _]; subst; [lia|exact (W Y)].
      - destruct ts' as [|t1 [|t2 [|t3 ts']]]; cbn in Le; try lia.
        inversion M as [|o1 ? os1 ? [M1 _] M']; subst. inversion M' as [|o2 ? os2 ? [M2 _] M'']; subst. inversion M''; subst.
        destruct (pair_put _ _ _ _ _ _ _ M1 M2 H1 E) as (H2 & t & -> & T). split; [exact H2|]. left. exists t. split; [reflexivity|].
        assert (Q : terms_of (Several [o1; o2]) = terms_of o1 ++ terms_of o2) by (cbn; rewrite app_nil_r; reflexivity).
        split; [split; [rewrite Q; exact T|]|constructor; auto]. apply (told_long _ _ T). rewrite <- Q. exact L2. }
    assert (HI : forall o n s, shapes (kind_of_symbol cfg fuel c0) o n -> part_read o n -> part_read o (NParent [n] s)).
    { intros o n s _ IH Sz Sy c r c' H E. cbn [ast_from_nested_syntax] in E. apply bind_back in E. destruct E as (ts & c1 & E1 & E).
      apply bind_back in E1. destruct E1 as (ta & c2 & Ea & E1). destruct (IH Sz Sy _ _ _ H Ea) as [H2 [(t & -> & M & Un)|[-> Un]]].
      - injection E1 as <- <-. unfold parse_list in E. cbn in E. injection E as <- <-. split; [exact H2|]. left. eauto.
      - destruct E1 as [-> ->]. destruct E as [-> ->]. auto. }
    assert (HN : parts_read [] []).
    { intros _ _ c r c' H E. injection E as <- <-. split; [exact H|]. left. exists []. split; [reflexivity|]. split; [constructor|intros o []]. }
    assert (HC : forall o n os ns, shapes (kind_of_symbol cfg fuel c0) o n -> part_read o n -> shapes_all (kind_of_symbol cfg fuel c0) os ns -> parts_read os ns ->
      parts_read (o :: os) (n :: ns)).
    { intros o n os ns _ IHo _ IHs Sz Sy c r c' H E. unfold all_terms in Sy. cbn [map concat] in Sy. apply Forall_app in Sy. destruct Sy as [Sy1 Sy2].
      apply bind_back in E. destruct E as (t & c1 & E1 & E).
      destruct (IHo (Sz o (or_introl eq_refl)) Sy1 _ _ _ H E1) as [H1 [(t' & -> & M & Un)|[-> Un]]].
      2:{ destruct E as [-> ->]. split; [exact H1|]. right. split; [reflexivity|]. intros X. apply Un, X. left. reflexivity. }
      apply bind_back in E. destruct E as (ts & c2 & E2 & E).
      destruct (IHs (fun x J => Sz x (or_intror J)) Sy2 _ _ _ H1 E2) as [H2 [(ts' & -> & Ms & Uns)|[-> Uns]]].
      - injection E as <- <-. split; [exact H2|]. left. exists (t' :: ts'). split; [reflexivity|]. split; [constructor; assumption|].
        intros x [<-|J]; auto.
      - destruct E as [-> ->]. split; [exact H2|]. right. split; [reflexivity|]. intros X. apply Uns. intros x J. apply X. right. exact J. }
    split.
    - apply (shapes_mind _ part_read parts_read); assumption.
    - apply (shapes_all_mind _ part_read parts_read); assumption.
  Qed.
  Lemma outlined_run os c r c' : sized (Several os) -> Forall telling (all_terms os) -> asked c ->
    run_command cfg fuel (outlined os) c = Ok (r, c') ->
    asked c' /\ ((exists x, r = Val x /\ answer_words (all_terms os) x /\ unambiguous (Several os)) \/
                 (r = Fail AmbiguousExpression /\ ~ unambiguous (Several os))).
  Proof.
    intros Sz Sy H E. unfold run_command in E. pose proof (search_clean cfg snap fuel fuel) as Cl. pose proof (terms_two _ Sz) as L2.
    apply bind_back in E. destruct E as (t & c1 & E1 & E). assert (H' := H). destruct H' as (S & D & _).
    assert (Wd : Forall word (all_terms os)) by (eapply Forall_impl; [|exact Sy]; intros w (k & _ & Sw & _); exact (SyW _ _ Sw)).
    apply (outlined_read _ _ _ _ _ _ D Wd Sz) in E1. destruct E1 as (ns & s & Sh & E1).
    apply sized_parts in Sz. destruct Sz as [L Sz]. apply bind_back in E1. destruct E1 as (ts & c2 & E2 & E1).
    cbn [syntax_list_for_nested_syntax] in E2.
    destruct (proj2 (outline_parts _ S D) _ _ Sh Sz Sy _ _ _ H E2) as [H2 [(ts' & -> & M & Un)|[-> Un]]].
    2:{ destruct E1 as [-> ->]. destruct E as [-> ->]. split; [exact H2|]. right. split; [reflexivity|]. intros X. inversion X. auto. }
    pose proof (same_length _ _ _ M) as Le.
    assert (K : forall u c3, asked c3 -> (forall n s q s', good s -> o_expand (ops n) own u s = Ok (q, s') -> good s' /\ told (all_terms os) q) ->
      (cbind (c_expand cfg fuel u) (fun t => cbind (fun c => obind (create_variable_concepts t c) (fun '(r, c) =>
        match r with Val t => Ok (Val t, c) | Fail _ => Panic "create_variable_concepts: unwrap" end)) (fun t => call cfg fuel t))) c3 = Ok (r, c') ->
      asked c' /\ exists x, r = Val x /\ answer_words (all_terms os) x).
    { intros u c3 H3 Ex Er. assert (S3 := proj1 H3). apply bind_back in Er. destruct Er as (t0 & c4 & E3 & Er). unfold c_expand in E3.
      apply (asked_search cfg snap fuel extra _ (told (all_terms os))) in E3; [|exact H3| |].
      2:{ unfold ops_of. rewrite S3. apply (oc_expand _ Cl). }
      2:{ intros s0 q s' G X. unfold ops_of in X. rewrite S3 in X. exact (Ex _ _ _ _ G X). }
      destruct E3 as (H4 & t' & -> & Rt). apply bind_back in Er. destruct Er as (q & c5 & E3 & Er).
      rewrite (no_variables _ _ Rt) in E3. cbn [obind] in E3. injection E3 as <- <-. exact (words_called _ _ _ _ _ _ Rt L2 H4 Er). }
    destruct (le_lt_dec 3 (length os)) as [L3|L3].
    - destruct (parts_long _ _ _ _ _ L3 M H2 E1) as [H3 [(u & -> & T & W)|[-> W]]].
      + destruct (K u c1 H3) as (H4 & x & -> & A); [|exact E|].
        { intros n s0 q s' G X. exact (told_expanded _ _ _ _ _ _ T G X). }
        split; [exact H4|]. left. exists x. split; [reflexivity|]. split; [exact A|]. constructor; auto.
      + destruct E as [-> ->]. split; [exact H3|]. right. split; [reflexivity|]. intros X. inversion X as [|? [Y|Y] _]; subst; [lia|exact (W Y)].
    - destruct ts' as [|t1 [|t2 [|t3 ts']]]; cbn in Le; try lia.
      inversion M as [|o1 ? os1 ? [M1 _] M']; subst. inversion M' as [|o2 ? os2 ? [M2 _] M'']; subst. inversion M''; subst.
      unfold parse_list in E1. cbn in E1. injection E1 as <- <-.
      destruct (K (new_pair t1 t2) c2 H2) as (H4 & x & -> & A); [|exact E|].
      { intros n s0 q s' G X. unfold all_terms. cbn [map concat]. rewrite app_nil_r. exact (top_expanded _ _ _ _ _ _ _ _ M1 M2 G X). }
      split; [exact H4|]. left. exists x. split; [reflexivity|]. split; [exact A|]. constructor; auto.
  Qed.
  Lemma outlined_executed os c x c' : ready c -> sized (Several os) -> Forall telling (all_terms os) -> asked c ->
    execute cfg fuel (outlined os) c = Ok (x, c') ->
    ((answer_words (all_terms os) x /\ unambiguous (Several os)) \/ (x = error_text AmbiguousExpression /\ ~ unambiguous (Several os))) /\
      c_snap c' = snap /\ c_delta c' = delta_default /\ good (start_state (c_cache c') (c_tick c')).
  Proof.
    intros Rd Sz Sy H E. destruct (execute_run cfg fuel _ c x c' F Rd E) as (z & c1 & E1 & _ & An & _).
    destruct (outlined_run _ _ _ _ Sz Sy H E1) as ((S1 & D1 & _ & G1) & Av). split.
    { destruct Av as [(y & -> & A & U)|[-> U]]; rewrite An; auto. }
    destruct (execute_quiet _ _ _ _ _ _ _ _ Rd E E1) as (A1 & A2 & A3 & _); [unfold recorded; rewrite D1; reflexivity|].
    destruct H as (S & D & _). rewrite A1, A2, A3. split; [exact S|]. split; [exact D|]. exact G1.
  Qed.
End Store.
