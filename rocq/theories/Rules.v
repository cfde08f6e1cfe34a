(** When a stored rule is used on an expression (C30): matching against patterns in the store. *)
From Verif Require Import Snapshot Search AstSpec MapFacts StoreFacts AstFacts Questions SearchKeeps.
From Coq Require Import List Bool.
Import ListNotations.

(** ** Specification *)
(** A pattern is a concept of the store.  [open g]: [g] has variables still to be assigned; [closed g]:
    it has none; [pair g l r]: [g] is composed of [l] and [r].  The expression [t] is the pattern [g] with [m] put
    for its variables. *)
Inductive fits (open closed : cid -> Prop) (pair : cid -> cid -> cid -> Prop) (m : mask) : tree -> cid -> Prop :=
| FitsVariable t g v :
    open g -> (forall l r, ~ pair g l r) -> maps_to m g v -> same_expr v t -> fits open closed pair m t g
| FitsPair t l r g gl gr :
    open g -> pair g gl gr -> t_exp t = Some (l, r) ->
    part_fits open closed pair m l gl -> part_fits open closed pair m r gr -> fits open closed pair m t g
(** A part of a pattern without variables is met only by the concept itself. *)
with part_fits (open closed : cid -> Prop) (pair : cid -> cid -> cid -> Prop) (m : mask) : tree -> cid -> Prop :=
| PartOpen t g : fits open closed pair m t g -> part_fits open closed pair m t g
| PartClosed t g : closed g -> t_concept t = Some g -> part_fits open closed pair m t g.
Scheme fits_rec2 := Minimality for fits Sort Prop
with part_fits_rec2 := Minimality for part_fits Sort Prop.
Combined Scheme fits_both from fits_rec2, part_fits_rec2.

Lemma fits_more open closed pair (m m' : mask) :
  (forall k v, maps_to m k v -> exists w, maps_to m' k w /\ same_expr w v) ->
  (forall t g, fits open closed pair m t g -> fits open closed pair m' t g) /\
  (forall t g, part_fits open closed pair m t g -> part_fits open closed pair m' t g).
Proof.
  intros S. apply fits_both.
  - intros t g v O N M X. destruct (S _ _ M) as (w & W & Y).
    eapply FitsVariable; [exact O|exact N|exact W|eapply same_expr_trans; eassumption].
  - intros. eapply FitsPair; eassumption.
  - intros. now apply PartOpen.
  - intros. now apply PartClosed.
Qed.

(** [u] is [t] with [m] put for the concepts it assigns. *)
Inductive filled (m : mask) : tree -> tree -> Prop :=
| FilledHere t c v : t_concept t = Some c -> maps_to m c v -> filled m t v
| FilledLeaf t : t_exp t = None -> filled m t t
| FilledPair t l r u l' r' :
    t_exp t = Some (l, r) -> t_exp u = Some (l', r') -> filled m l l' -> filled m r r' -> filled m t u.

Section Rules.
  Variable cfg : config.
  Variable snap : snapshot.

  (** What the store and the pending changes of a search record about a concept. *)
  Definition composed_of (e : env) (g l r : cid) : Prop :=
    exists m, read_concept cfg snap (e_delta e) g = Ok m /\ m_composition m = Some (l, r).
  (** A variable, or a composition with variables, that an enclosing rule has not assigned. *)
  Definition open_in (e : env) (g : cid) : Prop :=
    exists m, read_concept cfg snap (e_delta e) g = Ok m /\ m_free m = true /\
      forall ml, ml_tail (e_mask e) = Some ml -> ml_get ml g = None.
  (** Any other concept. *)
  Definition closed_in (e : env) (g : cid) : Prop :=
    exists m, read_concept cfg snap (e_delta e) g = Ok m /\
      (m_free m = false \/ exists ml, ml_tail (e_mask e) = Some ml /\ ml_get ml g <> None).
  Notation instance e := (fits (open_in e) (closed_in e) (composed_of e)).

  Lemma read_step e c s m s1 : read cfg snap e c s = Ok (m, s1) -> s1 = s /\ read_concept cfg snap (e_delta e) c = Ok m.
  Proof. unfold read, slift. intros E. apply obind_ok in E. destruct E as (x & E & [= -> ->]). auto. Qed.
  Lemma free_step e c s b s1 :
    is_free_variable cfg snap e c s = Ok (b, s1) -> s1 = s /\ (b = true <-> open_in e c) /\ (b = false <-> closed_in e c).
  Proof.
    unfold is_free_variable. intros E. apply sb in E. destruct E as (m & s2 & E1 & E2).
    apply read_step in E1. destruct E1 as [-> R]. injection E2 as <- <-. split; [reflexivity|].
    unfold open_in, closed_in. rewrite R. rewrite andb_true_iff, andb_false_iff. split; split.
    - intros [F T]. exists m. split; [reflexivity|]. split; [exact F|]. intros ml L. rewrite L in T.
      now destruct (ml_get ml c).
    - intros (m' & [= <-] & F & T). split; [exact F|]. destruct (ml_tail (e_mask e)) as [ml|]; [|reflexivity].
      now rewrite (T _ eq_refl).
    - intros [F|T]; exists m; (split; [reflexivity|]); [now left|right].
      destruct (ml_tail (e_mask e)) as [ml|]; [|discriminate]. exists ml. split; [reflexivity|].
      now destruct (ml_get ml c).
    - intros (m' & [= <-] & [F|(ml & L & T)]); [now left|right]. rewrite L. now destruct (ml_get ml c).
  Qed.
  Lemma comp_step e c s x s1 :
    composition_of_concept cfg snap e c s = Ok (x, s1) ->
    s1 = s /\ forall l r, composed_of e c l r <-> x = Some (l, r).
  Proof.
    unfold composition_of_concept, smap. intros E. apply sb in E. destruct E as (m & s2 & E1 & E2).
    apply read_step in E1. destruct E1 as [-> R]. injection E2 as <- <-. split; [reflexivity|].
    intros l r. unfold composed_of. rewrite R. split.
    - intros (m' & [= <-] & H). exact H.
    - eauto.
  Qed.
  Lemma bounded_step e (o : option cid) s b s1 :
    match o with Some c => smap m_bounded (read cfg snap e c) | None => sret false end s = Ok (b, s1) -> s1 = s.
  Proof.
    destruct o; [|now intros [= _ <-]]. unfold smap. intros E. apply sb in E. destruct E as (x & s2 & E1 & E2).
    apply read_step in E1. destruct E1 as [-> _]. now injection E2.
  Qed.
  Lemma merge_is lm rm : merge_masks lm rm = merge_into cid_eqb lm rm.
  Proof. revert rm; induction lm as [|[k v] lm IH]; intros rm; cbn; [reflexivity|]. now rewrite !IH. Qed.
  Lemma same_spec t g : option_eqb cid_eqb (t_concept t) (Some g) = true -> t_concept t = Some g.
  Proof. destruct (t_concept t); cbn; [|discriminate]. destruct (cid_eqb_spec c g); [congruence|discriminate]. Qed.

  Lemma matching e : forall t g s m s',
    check_generalisation cfg snap e t g s = Ok (Some m, s') ->
    functional m /\ instance e m t g /\ s' = s.
  Proof.
    assert (F1 : forall (g : cid) (t : tree), functional [(g, t)])
      by (intros; constructor; [intros []|constructor]).
    induction t as [tx c k|tx c tl IHl tr IHr fv bv]; intros g s m s' E; cbn [check_generalisation] in E;
      (apply sb in E; destruct E as (f & s1 & E1 & E); apply free_step in E1; destruct E1 as (-> & O & _);
       destruct f; cbn [negb] in E; [|discriminate]; destruct (smem _ _ _); [discriminate|];
       apply sb in E; destruct E as (b & s1 & E1 & E); destruct b; [discriminate|];
       apply bounded_step in E1; subst s1;
       apply sb in E; destruct E as (x & s1 & E2 & E); apply comp_step in E2; destruct E2 as [-> C];
       destruct x as [[gl gr]|];
       [|injection E as <- <-; split; [apply F1|]; split; [|reflexivity];
         eapply FitsVariable; [now apply O| |now left|apply same_expr_refl];
         intros l r H; apply C in H; discriminate]).
    - discriminate.
    - pose proof (proj1 O eq_refl) as O'. pose proof (proj2 (C gl gr) eq_refl) as C'. 
        apply sb in E. destruct E as (fl & s1 & E1 & E). apply free_step in E1. destruct E1 as (-> & _ & Ol).
        apply sb in E. destruct E as (fr & s1 & E1 & E). apply free_step in E1. destruct E1 as (-> & _ & Or).
        destruct fl, fr.
        * apply sb in E. destruct E as (lm & s1 & E1 & E). apply sb in E. destruct E as (rm & s2 & E2 & E).
          injection E as E <-. destruct lm as [lm|]; [|discriminate]. destruct rm as [rm|]; [|discriminate].
          apply IHl in E1. destruct E1 as (Fl & Il & ->). apply IHr in E2. destruct E2 as (Fr & Ir & ->).
          rewrite merge_is in E. 
          destruct (merge_into_union cid_eqb cid_eqb_spec _ _ _ Fl Fr E) as [(F & _ & U1 & U2) _].
          split; [exact F|]. split; [|reflexivity].
          eapply FitsPair; [exact O'|exact C'|reflexivity| |]; apply PartOpen; [apply (proj1 (fits_more _ _ _ _ _ U1))|apply (proj1 (fits_more _ _ _ _ _ U2))]; assumption.
        * destruct (option_eqb _ _ _) eqn:S; [|discriminate]. apply same_spec in S.
          apply IHl in E. destruct E as (F & I & ->). split; [exact F|]. split; [|reflexivity].
          eapply FitsPair; [exact O'|exact C'|reflexivity|now apply PartOpen|apply PartClosed; [|exact S]].
          now apply Or.
        * destruct (option_eqb _ _ _) eqn:S; [|discriminate]. apply same_spec in S.
          apply IHr in E. destruct E as (F & I & ->). split; [exact F|]. split; [|reflexivity].
          eapply FitsPair; [exact O'|exact C'|reflexivity|apply PartClosed; [|exact S]|now apply PartOpen].
          now apply Ol.
        * injection E as E <-. destruct (option_eqb _ _ _) eqn:S; [|discriminate]. apply same_spec in S.
          destruct (option_eqb cid_eqb (t_concept tr) _) eqn:S2; [|discriminate]. apply same_spec in S2.
          injection E as <-. split; [constructor|]. split; [|reflexivity].
          eapply FitsPair; [exact O'|exact C'|reflexivity|apply PartClosed; [|exact S]|apply PartClosed; [|exact S2]].
          -- now apply Ol.
          -- now apply Or.
  Qed.

  (** No part of the expression is bound by a quantifier of the command or is a bound variable. *)
  Inductive unbound (e : env) : tree -> Prop :=
  | Unbound t :
      ~ In (t_key t) (e_bound e) ->
      (forall c, t_concept t = Some c -> exists m, read_concept cfg snap (e_delta e) c = Ok m /\ m_bounded m = false) ->
      (forall l r, t_exp t = Some (l, r) -> unbound e l /\ unbound e r) ->
      unbound e t.
  Definition readable (e : env) (c : cid) : Prop := exists m, read_concept cfg snap (e_delta e) c = Ok m.

  Lemma free_known e c s : readable e c -> exists b, is_free_variable cfg snap e c s = Ok (b, s).
  Proof. intros [m R]. unfold is_free_variable, read, slift, sbind. rewrite R. eexists. reflexivity. Qed.
  Lemma free_open e c s : open_in e c -> is_free_variable cfg snap e c s = Ok (true, s).
  Proof.
    intros O. pose proof O as (m & R & _). destruct (free_known e c s (ex_intro _ m R)) as [b E].
    rewrite E. apply free_step in E. destruct E as (_ & E & _). now rewrite (proj2 E O).
  Qed.
  Lemma free_closed e c s : closed_in e c -> is_free_variable cfg snap e c s = Ok (false, s).
  Proof.
    intros O. pose proof O as (m & R & _). destruct (free_known e c s (ex_intro _ m R)) as [b E].
    rewrite E. apply free_step in E. destruct E as (_ & _ & E). now rewrite (proj2 E O).
  Qed.
  Lemma comp_known e c s : readable e c -> exists x, composition_of_concept cfg snap e c s = Ok (x, s).
  Proof. intros [m R]. unfold composition_of_concept, smap, read, slift, sbind. rewrite R. eexists. reflexivity. Qed.
  Lemma same_refl t g : t_concept t = Some g -> option_eqb cid_eqb (t_concept t) (Some g) = true.
  Proof. intros ->. cbn. now destruct (cid_eqb_spec g g). Qed.

  Definition within (m m' : mask) : Prop := forall k v, maps_to m k v -> exists w, maps_to m' k w /\ same_expr w v.
  Lemma within_agree (a b m : mask) : functional m -> within a m -> within b m -> agree a b.
  Proof.
    intros F A B k v w Hv Hw. destruct (A _ _ Hv) as (x & X & Sx). destruct (B _ _ Hw) as (y & Y & Sy).
    apply (aget_maps cid_eqb cid_eqb_spec _ _ _ F) in X, Y. assert (x = y) by congruence. subst y.
    eapply same_expr_trans; [apply same_expr_sym; exact Sx|exact Sy].
  Qed.

  Lemma matching_complete e m : functional m ->
    forall t g s, unbound e t -> instance e m t g ->
      exists m', check_generalisation cfg snap e t g s = Ok (Some m', s) /\ within m' m.
  Proof.
    intros F.
    assert (One : forall (g : cid) (t v : tree), maps_to m g v -> same_expr v t -> within [(g, t)] m)
      by (intros g t v M S k w [[= <- <-]|[]]; eauto).
    induction t as [tx c k|tx c tl IHl tr IHr fv bv]; intros g s U I; cbn [check_generalisation];
    (inversion U as [? U1 U2 U3]; subst;
     assert (Og : open_in e g) by (inversion I; assumption);
     assert (Rg : readable e g) by (destruct Og as (x & Rx & _); exists x; exact Rx);
     destruct (comp_known e g s Rg) as [x Ex]; pose proof (proj2 (comp_step _ _ _ _ _ Ex)) as Cx;
     unfold sbind at 1; rewrite (free_open e g s Og); cbn [obind negb];
     match goal with |- context [smem key_eqb ?k ?l] => destruct (smem key_eqb k l) eqn:Sm;
       [apply (smem_in key_eqb key_eqb_spec) in Sm; contradiction|] end;
     clear Sm; unfold sbind at 1;
     match goal with |- context [obind ?z] => assert (Ez : z = Ok (false, s)) end;
     [cbn [t_concept] in *; destruct c as [c|]; [|reflexivity];
      destruct (U2 _ eq_refl) as (mx & Rx & Bx); unfold smap, read, slift, sbind; rewrite Rx; cbn; now rewrite Bx|];
     rewrite Ez; clear Ez; cbn [obind]; unfold sbind at 1; rewrite Ex; cbn [obind]).
    - inversion I as [? ? v _ N M Sv|? ? ? ? gl gr _ _ X]; subst; [|discriminate].
      destruct x as [[gl gr]|]; [destruct (N gl gr); now apply Cx|]. eexists. split; [reflexivity|]. eauto.
    - inversion I as [? ? v _ N M Sv|? l r ? gl gr _ C X Pl Pr]; subst.
      { destruct x as [[gl gr]|]; [destruct (N gl gr); now apply Cx|]. eexists. split; [reflexivity|]. eauto. }
      cbn [t_exp] in X. injection X as <- <-. pose proof C as C'. apply Cx in C'. subst x.
      destruct (U3 _ _ eq_refl) as [Ul Ur].
      assert (Opens : forall t z, instance e m t z -> open_in e z) by (intros ? ? H; inversion H; assumption).
      assert (Fl : exists fl, is_free_variable cfg snap e gl s = Ok (fl, s) /\
                (if fl then instance e m tl gl else t_concept tl = Some gl)).
      { inversion Pl; subst; [exists true; split; [apply free_open; eauto|assumption]
                             |exists false; split; [apply free_closed; assumption|assumption]]. }
      assert (Fr : exists fr, is_free_variable cfg snap e gr s = Ok (fr, s) /\
                (if fr then instance e m tr gr else t_concept tr = Some gr)).
      { inversion Pr; subst; [exists true; split; [apply free_open; eauto|assumption]
                             |exists false; split; [apply free_closed; assumption|assumption]]. }
      destruct Fl as (fl & El & Hl), Fr as (fr & Er & Hr).
      unfold sbind at 1. rewrite El. cbn [obind]. unfold sbind at 1. rewrite Er. cbn [obind].
      destruct fl, fr.
      + destruct (IHl gl s Ul Hl) as (lm & E1 & W1). destruct (IHr gr s Ur Hr) as (rm & E2 & W2).
        unfold sbind. rewrite E1. cbn [obind]. rewrite E2. cbn [obind].
        destruct (matching e _ _ _ _ _ E1) as (F1 & _). destruct (matching e _ _ _ _ _ E2) as (F2 & _).
        destruct (merge_into_agree cid_eqb cid_eqb_spec lm rm F1 F2 (within_agree _ _ _ F W1 W2)) as [u Eu].
        destruct (merge_into_union cid_eqb cid_eqb_spec _ _ _ F1 F2 Eu) as [(_ & U' & _) _].
        exists u. rewrite merge_is, Eu. split; [reflexivity|]. intros k v H. destruct (U' _ _ H) as [G|G]; auto.
      + rewrite (same_refl _ _ Hr). destruct (IHl gl s Ul Hl) as (lm & E1 & W1). eauto.
      + rewrite (same_refl _ _ Hl). destruct (IHr gr s Ur Hr) as (lm & E1 & W1). eauto.
      + rewrite (same_refl _ _ Hl), (same_refl _ _ Hr). exists []. split; [reflexivity|]. intros k v [].
  Qed.

  (** ** The evaluator *)
  Variable rf : nat.
  Notation ops n := (search cfg snap rf n).

  Lemma bind_pair_exp t l r : t_exp (bind_pair t l r) = Some (l, r).
  Proof. unfold bind_pair, branch. now destruct (pair_vars l r). Qed.
  Lemma contract_exp n e l r s u s' :
    contract_pair cfg snap rf (ops n) e l r s = Ok (u, s') -> t_exp u = Some (l, r).
  Proof.
    unfold contract_pair. intros E. apply sb in E. destruct E as (c & s1 & _ & E).
    apply sb in E. destruct E as (t & s2 & _ & E). injection E as <- _. apply bind_pair_exp.
  Qed.
  Lemma substitute_filled n e m : forall t s u s',
    substitute cfg snap rf (ops n) e t m s = Ok (u, s') -> filled m t u.
  Proof.
    induction t as [tx c k|tx c tl IHl tr IHr fv bv]; intros s u s' E; cbn [substitute t_concept] in E.
    - destruct (match c with Some c => aget cid_eqb c m | None => None end) as [v|] eqn:G.
      + destruct c as [c|]; [|discriminate]. injection E as <- _.
        apply (aget_In _ cid_eqb_spec) in G. now apply FilledHere with c.
      + injection E as <- _. now apply FilledLeaf.
    - destruct (match c with Some c => aget cid_eqb c m | None => None end) as [v|] eqn:G.
      + destruct c as [c|]; [|discriminate]. injection E as <- _.
        apply (aget_In _ cid_eqb_spec) in G. now apply FilledHere with c.
      + apply sb in E. destruct E as (l' & s1 & E1 & E). apply sb in E. destruct E as (r' & s2 & E2 & E).
        apply contract_exp in E. eapply FilledPair; [reflexivity|exact E|eauto|eauto].
  Qed.

  (** The pattern [g] itself reduces to [t], with the assignment [m] on top of those of [e]. *)
  Definition pattern_reduces (n : nat) (e : env) (m : mask) (g : cid) (t : tree) (why : reason) : Prop :=
    exists e' s s', e_delta e' = e_delta e /\ e_mask e' = m :: e_mask e /\
      reduce_concept cfg snap rf (ops n) e' g s = Ok (Some (t, why), s').

  (** The use of a rule. *)
  Definition rule_used (n : nat) (e : env) (g : cid) (t t' : tree) (m : mask) (why : reason) : Prop :=
    m <> [] /\ functional m /\ instance e m t g /\ 
    exists t1, pattern_reduces n e m g t1 why /\ filled m t1 t'.

  Lemma try_rule_used n e h t g s t' why s' :
    try_rule cfg snap rf (ops n) e h t g s = Ok (Some (t', why), s') ->
    exists gt m why1, why = RRule gt m why1 /\ rule_used n e g t t' m why1.
  Proof.
    unfold try_rule. intros E. apply sb in E. destruct E as (vm & s1 & E1 & E).
    destruct vm as [[|x m]|]; try discriminate. apply matching in E1. destruct E1 as (F & I & ->).
    set (mk := x :: m) in *. apply sb in E. destruct E as (e0 & s2 & E2 & E).
    unfold spawn in E2. apply sb in E2. destruct E2 as (sy & s3 & _ & E2). injection E2 as <- _.
    unfold opt_then in E. cbn [e_mask] in E. unfold ml_push in E.
    destruct (ml_contains (e_mask e) mk); [discriminate|]. apply at_some in E.
    destruct E as ([t1 why1] & s4 & E3 & E). apply sb in E. destruct E as (t2 & s5 & E4 & E).
    apply sb in E. destruct E as (gt & s6 & _ & E). injection E as <- <- _.
    exists gt, mk, why1. split; [reflexivity|]. split; [discriminate|]. split; [exact F|]. split; [exact I|].
    exists t1. split; [|eapply substitute_filled; exact E4].
    eexists _, _, _. split; [|split; [|exact E3]]; reflexivity.
  Qed.

  (** A rule applied to a pair. *)
  Lemma pair_rule_used n e l r s t' gt m why s' :
    reduce_pair cfg snap rf (ops n) e l r s = Ok (Some (t', RRule gt m why), s') ->
    exists u g, t_exp u = Some (l, r) /\ rule_used n e g u t' m why.
  Proof.
    unfold reduce_pair. intros E. apply or_else_some in E. destruct E as [E|(s1 & _ & E)].
    { exfalso. destruct (t_exp r) as [[rl rr]|]; [|discriminate]. cbn [opt_then] in E.
      unfold reduce_by_expanded_right_branch in E. apply sb in E. destruct E as (ty & s2 & _ & E).
      destruct ty as [[]|]; try discriminate.
      - apply at_some in E. destruct E as ([x why1] & s3 & E1 & E). apply at_some in E.
        destruct E as (x1 & s4 & _ & E). injection E as _ E _. subst why1. unfold determine_reduction_truth in E1.
        destruct (key_eqb _ _); [discriminate|]. apply sb in E1. destruct E1 as (lr & s5 & _ & E1).
        apply sb in E1. destruct E1 as (rl' & s6 & _ & E1). destruct lr, rl'; discriminate.
      - apply sb in E. destruct E as ([c cr] & s3 & _ & E). apply at_some in E.
        destruct E as (x & s4 & _ & E). discriminate. }
    apply or_else_some in E. destruct E as [E|(s2 & _ & E)].
    { exfalso. destruct (t_exp l) as [[ll lr]|]; [|discriminate]. cbn [opt_then] in E.
      unfold reduce_by_expanded_left_branch in E. apply sb in E. destruct E as (ty & s2 & _ & E).
      destruct (_ && _); [|discriminate]. apply sb in E. destruct E as (o & s3 & _ & E).
      apply sb in E. destruct E as (id & s4 & _ & E). apply sb in E. destruct E as (x & s5 & _ & E).
      apply at_some in E. destruct E as (subs & s6 & _ & E). apply sb in E. destruct E as (y & s7 & _ & E).
      discriminate. }
    unfold recursively_reduce_pair in E. apply sb in E. destruct E as (lr & s3 & _ & E).
    apply sb in E. destruct E as (rr & s4 & _ & E). apply sb in E. destruct E as (h & s5 & _ & E).
    assert (P : forall p s t (s' : sstate), partial_reason cfg p s = Ok (t, s') -> exists q, t = RPartial q).
    { intros p sa t sb0 H. unfold partial_reason in H. apply sb in H. destruct H as (q & sc & _ & H).
      injection H as <- _. eauto. }
    destruct lr as [[lt lw]|], rr as [[rt rw]|];
      try (exfalso; apply sb in E; destruct E as (u & s6 & _ & E); apply sb in E; destruct E as (p & s7 & E1 & E);
           injection E as _ E _; apply P in E1; destruct E1 as [q ->]; discriminate).
    apply sb in E. destruct E as (u & s6 & E1 & E). apply contract_exp in E1.
    apply sb in E. destruct E as (gs & s7 & _ & E). apply sb in E. destruct E as (gs' & s8 & _ & E).
    apply find_map_some in E. destruct E as (g & s9 & s10 & _ & E). apply try_rule_used in E.
    destruct E as (gt' & m' & why' & [= <- <- <-] & U). eauto.
  Qed.

  (** What the evaluator says about an expression it has not looked at before: if it names a rule as
      the reason, then the expression is an instance of the pattern of that rule. *)
  Lemma reduce_rule_used n e t s t' gt m why s' :
    lookup_red (e_reds e) (t_key t) (s_red s) = None -> inferences (s_inf s) ->
    o_reduce (ops (S n)) e t s = Ok (Some (t', RRule gt m why), s') ->
    exists u g, t_exp u = t_exp t /\ rule_used n e g u t' m why.
  Proof.
    intros K I E. cbn [search step o_reduce] in E. unfold reduce in E. apply sb in E.
    destruct E as (cached & s1 & E1 & E). unfold cached_reduction in E1. rewrite K in E1. injection E1 as <- <-.
    apply sb in E. destruct E as (cc & s2 & E2 & E).
    assert (I2 : inferences (s_inf s2)).
    { destruct (t_concept t); [|injection E2 as _ <-; exact I]. eapply concrete_type_keeps; eassumption. }
    destruct cc; [discriminate|].
    apply sb in E. destruct E as (rr & s3 & E1 & E). apply sb in E. destruct E as ([] & s4 & _ & E).
    injection E as -> _. apply or_else_some in E1. destruct E1 as [E1|(s5 & _ & E1)].
    - exfalso. destruct (t_concept t) as [c|]; [|discriminate]. cbn [opt_then] in E1.
      apply concept_by in E1; [|apply search_keeps|exact I2]. destruct E1 as [E1|(? & ? & E1)]; discriminate.
    - destruct (t_exp t) as [[l r]|] eqn:X; [|discriminate]. cbn [opt_then] in E1.
      apply pair_rule_used in E1. destruct E1 as (u & g & Eu & U). exists u, g. auto.
  Qed.
End Rules.
