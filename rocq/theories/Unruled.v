(** When no implication can say anything about a symbol. *)
From Verif Require Import Snapshot Search StoreSpec StoreInv StoreFacts MapFacts AstSpec AstFacts SearchKeeps SearchCaches
  Questions Existence Wide Earned Matches Implications Asking Shapes.
From Coq Require Import List PeanoNat Bool Permutation.
Import ListNotations.
Local Open Scope zia_scope.

(** ** Specification *)
Section Spec.
  Variable s : snapshot.
  (** Any text may be put for the concept [n]: it is a variable, there are variables in it, or it goes by
      a name that is written like one. *)
  Definition indefinite (n : nat) : Prop :=
    leaf_variable s n FreeVariable \/ leaf_variable s n BoundVariable \/
    (exists c l r v fv bv red, lookup s n = Some c /\ c_spec c = Abstract (Comp l r (v :: fv) bv) red) \/
    (exists w, goes_by s n w /\ is_variable_text w = true).
  (** [b'] is [b] or listed as reducing to it. *)
  Definition same_or_reducing (b b' : nat) : Prop := b' = b \/ lists_reduction_from s b b'.
  (** The concept [n] may be understood as [h1 (h2 (… x))], where [h1 … ] are the given concepts. *)
  Inductive may_say : list nat -> nat -> Prop :=
  | SaysAny n : may_say [] n
  | SaysVariable hs n : leaf_variable s n FreeVariable -> may_say hs n
  | SaysPair h hs n a b b' :
      composed s n a b -> a = h \/ indefinite a -> same_or_reducing b b' -> may_say hs b' -> may_say (h :: hs) n.
  (** No implication that is known to be true has a conclusion that may be understood as [k -> …]. *)
  Definition unruled (k : nat) : Prop :=
    forall true imp red z cond w w',
      built_in s true CTrue -> built_in s imp CImplication -> built_in s red CReduction ->
      same_or_reducing true z -> composed s z cond w -> same_or_reducing w w' -> ~ may_say [imp; k; red] w'.
  (** [=>] and [->] do not go by names that are written like variables. *)
  Definition operators_named : Prop := forall n w, built_in s n CImplication \/ built_in s n CReduction ->
    goes_by s n w -> is_variable_text w = false.
End Spec.

(** ** Nothing happens when there is no example *)
Section Unmatched.
  Variables (cfg : config) (snap : snapshot) (rf : nat) (J : sstate -> Prop)
    (I : sstate -> sstate -> Prop) (P P1 : env -> Prop) (Hd : nat -> Prop).
  Hypothesis L : cache_laws cfg snap rf J I P P1 Hd.
  Notation ops n := (search cfg snap rf n).
  Lemma none_found {A B} (f : A -> SM (option B)) l :
    (forall a s r s', In a l -> J s -> f a s = Ok (r, s') -> r = None /\ J s' /\ I s s') ->
    forall s r s', J s -> find_map f l s = Ok (r, s') -> r = None /\ J s' /\ I s s'.
  Proof.
    induction l as [|a l IH]; intros K s r s' H E; cbn [find_map] in E.
    - injection E as <- <-. split; [reflexivity|]. split; [exact H|apply (l_refl _ _ _ _ _ _ _ _ L), H].
    - unfold or_else in E. apply sb in E. destruct E as (x & s1 & E1 & E).
      destruct (K a _ _ _ (or_introl eq_refl) H E1) as (-> & H1 & I1).
      destruct (IH (fun b q r q' Ib => K b q r q' (or_intror Ib)) _ _ _ H1 E) as (-> & H2 & I2).
      split; [reflexivity|]. split; [exact H2|]. eapply (l_trans _ _ _ _ _ _ _ _ L); eassumption.
  Qed.
  Lemma unmatched R n e g eqs (k : ex_subs -> SM (option R)) s r s' l t :
    P e -> J s -> t_exp g = Some (l, t) -> open_in cfg snap e l -> open_in cfg snap e t ->
    (forall c x, In c eqs -> ~ matches cfg snap rf J e g c x) ->
    o_examples (ops n) e g eqs k s = Ok (r, s') -> r = None /\ J s' /\ I s s'.
  Proof.
    intros Pe H X Ol Ot No E. destruct n as [|n]; [discriminate|].
    pose proof (search_kp_up_to _ _ _ _ _ _ _ _ L n) as OB.
    cbn [search step o_examples] in E. unfold find_examples in E. rewrite X in E.
    unfold branched_examples in E. apply sb in E. destruct E as (bl & s1 & Bl & E).
    destruct (contains_bound_kp _ _ _ _ _ _ _ _ L e l _ _ _ H Bl) as [H1 I1].
    apply sb in E. destruct E as (br & s2 & Br & E).
    destruct (contains_bound_kp _ _ _ _ _ _ _ _ L e t _ _ _ H1 Br) as [H2 I2].
    assert (bl = true) by (destruct bl; [reflexivity|exfalso; exact (closed_ok _ _ _ _ _ _ Bl Ol)]).
    assert (br = true) by (destruct br; [reflexivity|exfalso; exact (closed_ok _ _ _ _ _ _ Br Ot)]). subst bl br.
    apply none_found in E; [|clear E|exact H2].
    { destruct E as (-> & H3 & I3). split; [reflexivity|]. split; [exact H3|].
      eapply (l_trans _ _ _ _ _ _ _ _ L); [exact I1|]. eapply (l_trans _ _ _ _ _ _ _ _ L); eassumption. }
    intros c q r' q' Ic Hq E. apply sb in E. destruct E as (comp & q1 & C & E).
    destruct (composition_of_concept_kp _ _ _ _ _ _ _ _ L e c _ _ _ Hq C) as [Hq1 Iq1].
    destruct comp as [[a b]|].
    2:{ injection E as <- <-. auto. }
    apply composition_ok in C. unfold and_then in E. apply sb in E. destruct E as (x & q2 & E1 & E).
    destruct (example_of_both_kp _ _ _ _ _ _ _ _ L n OB e l t a b Pe _ _ _ Hq1 E1) as [Hq2 Iq2].
    destruct x as [x|].
    - exfalso. apply (No c x Ic).
      exact (both_matched _ _ _ _ _ _ _ _ L n e g l t c a b _ x _ (examples_matched _ _ _ _ _ _ _ _ L n) Pe Hq1 X Ol Ot C E1).
    - injection E as <- <-. split; [reflexivity|]. split; [exact Hq2|]. eapply (l_trans _ _ _ _ _ _ _ _ L); eassumption.
  Qed.
End Unmatched.

(** ** Patterns *)
Section Patterns.
  Variables (cfg : config) (snap : snapshot) (rf : nat) (J : sstate -> Prop).
  Notation ops n := (search cfg snap rf n).
  Hypothesis F : fair cfg.
  Hypothesis N : self_numbered snap.
  Hypothesis LC : compositions_are_listed snap.
  Hypothesis LR : listed_compositions_are_real snap.
  Hypothesis UL : forall a b, built_in snap a CLabel -> built_in snap b CLabel -> a = b.
  Variable lab : nat.
  Hypothesis CI : concrete_concept_id cfg snap delta_default CLabel = Ok (Some (Committed lab)).
  Hypothesis BL : built_in snap lab CLabel.
  Hypothesis JJ : forall s, J s -> shaped cfg snap rf s.
  Notation simple := (simple snap).
  Notation shape := (shape cfg snap rf).
  Notation leaf_of := (leaf_of cfg snap rf).
  Notation matches := (matches cfg snap rf J).

  (** A tree of symbols without open parts, in which no pair is a concept. *)
  Inductive inert (e : env) : tree -> Prop :=
  | InertLeaf s n k : ~ open_in cfg snap e (TLeaf s (Some (Committed n)) k) -> inert e (TLeaf s (Some (Committed n)) k)
  | InertPair s l r fv bv : inert e l -> inert e r -> (forall c, pair_concept cfg snap e l r c -> c = None) ->
      inert e (TBranch s None l r fv bv).
  Lemma inert_closed e t : e_bound e = [] -> inert e t -> ~ open_in cfg snap e t.
  Proof.
    intros B. induction 1 as [s n k H|s l r fv bv _ IHl _ IHr _]; [exact H|]. intros (p & Pp & A).
    inversion Pp as [|? ? ? ? ? ? Q|? ? ? ? ? ? Q]; subst; [|exact (IHl (ex_intro _ p (conj Q A)))|exact (IHr (ex_intro _ p (conj Q A)))].
    destruct A as [A|(c & m & T & _)]; [rewrite B in A; destruct A|discriminate T].
  Qed.
  (** What is in the place of a head: the symbol [h], or any such tree. *)
  Definition slot (e : env) (o : option nat) (p : tree) : Prop :=
    match o with
    | Some h => exists s k, p = TLeaf s (Some (Committed h)) k /\ k <> LVariable /\ ~ open_in cfg snap e p
    | None => inert e p
    end.
  Lemma slot_closed e o p : e_bound e = [] -> slot e o p -> ~ open_in cfg snap e p.
  Proof. destruct o as [h|]; intros B; [intros (s & k & _ & _ & H); exact H|exact (inert_closed e p B)]. Qed.
  Definition fills : list (option nat) -> list nat -> Prop :=
    Forall2 (fun o h => match o with Some k => h = k | None => True end).
  Lemma fills_some os : exists hs, fills os hs.
  Proof.
    induction os as [|o os (hs & H)]; [exists []; constructor|]. exists (match o with Some k => k | None => 0 end :: hs).
    constructor; [destruct o; auto|exact H].
  Qed.
  Lemma fills_three i o j hs : fills [Some i; o; Some j] hs -> exists h, hs = [i; h; j] /\ match o with Some k => h = k | None => True end.
  Proof.
    intros H. destruct hs as [|h1 [|h2 [|h3 [|h4 hs]]]]; repeat match goal with Q : Forall2 _ _ _ |- _ => inversion Q; clear Q; subst
      | Q : fills _ _ |- _ => inversion Q; clear Q; subst end. eauto.
  Qed.
  (** [g] is [h1 (h2 (… v))]; the variable [v] is open. *)
  Inductive spine (e : env) : list (option nat) -> tree -> Prop :=
  | SpineEnd v : t_exp v = None -> open_in cfg snap e v -> spine e [] v
  | SpinePair o os g p g' : t_exp g = Some (p, g') -> slot e o p -> spine e os g' -> spine e (o :: os) g.
  Lemma exp_open e g l r : t_exp g = Some (l, r) -> open_in cfg snap e r -> open_in cfg snap e g.
  Proof.
    destruct g as [|s c l' r' fv bv]; cbn; [discriminate|]. intros [= -> ->] O. apply open_branch. auto.
  Qed.
  Lemma spine_open e os g : spine e os g -> open_in cfg snap e g.
  Proof. induction 1 as [v _ O|o os g p g' X _ _ O]; [exact O|]. exact (exp_open _ _ _ _ X O). Qed.

  Lemma shape_slot n t gen ex s h k : shape n t -> k <> LVariable ->
    instance gen ex t (TLeaf s (Some (Committed h)) k) -> n = h \/ indefinite snap n.
  Proof.
    intros S K T. destruct S as [n t V|n t Lf|n x y a b t C _ _ X].
    - right. left. exact V.
    - destruct (leaf_is _ _ _ N _ _ Lf) as (s' & k' & ->). inversion T; subst; try contradiction.
      + right. destruct Lf as (o & lb & L & El & Eb). destruct lb as [w|].
        * unfold bind_concept_to_syntax in Eb. apply obind_ok in Eb. destruct Eb as (ty & _ & Eb).
          destruct (opt_cct_eqb ty _).
          { unfold bind_quantifier in Eb. apply obind_ok in Eb. destruct Eb as (u & _ & [= Eb]). }
          cbn in Eb. destruct (is_variable_text w) eqn:V; [|discriminate].
          unfold label_for in El. destruct (get_string o) as [x|] eqn:G.
          { injection El as <-. exfalso. clear - V. unfold format_string in V. cbn in V. discriminate. }
          right. right. right. exists w. split; [|exact V].
          exact (label_names cfg snap LC LR UL lab CI BL _ _ _ El).
        * destruct Eb as [G Eb]. unfold new_syntax_from_leaf_concept in Eb. destruct (opt_cct_eqb _ _); [discriminate|].
          destruct (m_anonymous _) eqn:A; [|discriminate]. cbn in A. unfold anonymous_variable in A. unfold get_composition in G.
          destruct (c_spec o) as [|[l r fv bv|[]] red|] eqn:Sp; try discriminate.
          -- left. exists o, red. auto.
          -- right. left. exists o, red. auto.
      + left. congruence.
    - destruct t as [|s' c' l r fv bv]; [discriminate|]. inversion T; subst. contradiction.
  Qed.
  Lemma shape_says e os : forall g n t gen ex, spine e os g -> shape n t -> instance gen ex t g -> exists hs, fills os hs /\ may_say snap hs n.
  Proof.
    induction os as [|o os IH]; intros g n t gen ex Sp S T; [exists []; split; constructor|].
    inversion Sp as [|o' os' g0 p g' X Sl Sp']; subst.
    destruct S as [n t V|n t Lf|n x y a b t C Sa Sb Xt].
    - destruct (fills_some (o :: os)) as (hs & H). exists hs. split; [exact H|apply SaysVariable, V].
    - destruct (leaf_is _ _ _ N _ _ Lf) as (s' & k' & ->). destruct g as [|gs gc gl gr gf gb]; [discriminate|]. inversion T.
    - destruct g as [|gs gc gl gr gf gb]; [discriminate|]. cbn in X. injection X as -> ->.
      destruct t as [|ts tc tl tr tf tb]; [discriminate|]. cbn in Xt. injection Xt as -> ->. inversion T; subst.
      match goal with A : instance _ _ a _, B : instance _ _ b _ |- _ =>
        destruct (IH _ _ _ _ _ Sp' Sb B) as (hs & Fi & Sr); rename A into Ia end.
      destruct o as [h|].
      + destruct Sl as (s & k & -> & K & _). exists (h :: hs). split; [constructor; [reflexivity|exact Fi]|].
        eapply SaysPair; [exact C|exact (shape_slot _ _ _ _ _ _ _ Sa K Ia)|left; reflexivity|exact Sr].
      + exists (x :: hs). split; [constructor; [exact I|exact Fi]|].
        eapply SaysPair; [exact C|left; reflexivity|left; reflexivity|exact Sr].
  Qed.
  Lemma composed_back e n a b : simple e -> composed_of cfg snap e (Committed n) a b ->
    exists x y, a = Committed x /\ b = Committed y /\ composed snap n x y.
  Proof.
    intros (W & _) (m & R & C). unfold known in R. apply (wide_back cfg snap _ W) in R. destruct R as (o & L & ->).
    cbn [m_composition mixed_of_committed] in C. unfold get_composition in C.
    destruct (c_spec o) as [|[l r fv bv|] red|] eqn:S; try discriminate. injection C as <- <-.
    exists l, r. split; [reflexivity|]. split; [reflexivity|]. exists o, fv, bv, red. auto.
  Qed.
  Lemma standing_back e n b : simple e -> stands_for cfg snap e (Committed n) b ->
    exists y, b = Committed y /\ same_or_reducing snap n y.
  Proof.
    intros (W & _) [->|(m & R & I)]; [exists n; split; [reflexivity|left; reflexivity]|]. unfold known in R.
    apply (wide_back cfg snap _ W) in R. destruct R as (o & L & ->).
    cbn [m_reduces_from mixed_of_committed ch_from] in I. rewrite in_app_iff in I. destruct I as [I|I].
    - apply filter_In in I. destruct I as [I _]. apply in_map_iff in I. destruct I as (q & <- & I).
      exists q. split; [reflexivity|]. right. exists o. split; [exact L|]. eapply Permutation_in; [apply F|exact I].
    - exfalso. apply in_map_iff in I. destruct I as (q & _ & I). apply filter_In in I. destruct I as [I _].
      apply (Permutation_in _ (F _ _ _)) in I. destruct I.
  Qed.
  Lemma free_back e n : simple e -> is_free cfg snap e (Committed n) -> indefinite snap n.
  Proof.
    intros (W & _) (m & R & Fm). unfold known in R. apply (wide_back cfg snap _ W) in R. destruct R as (o & L & ->).
    cbn in Fm. unfold free_variable in Fm. destruct (c_spec o) as [|[l r [|v fv] bv|[]] red|] eqn:S; try discriminate.
    - right. right. left. exists o, l, r, v, fv, bv, red. auto.
    - left. exists o, red. auto.
  Qed.
  Lemma matches_says e : simple e -> forall os g n x, spine e os g -> matches e g (Committed n) x -> exists hs, fills os hs /\ may_say snap hs n.
  Proof.
    intros Se. pose proof (proj1 (proj2 Se)) as Be.
    induction os as [|o os IH]; intros g n x Sp M; [exists []; split; constructor|].
    inversion Sp as [|o' os' g0 p0 g' X Sl Sp']; subst. pose proof (spine_open _ _ _ Sp') as Op.
    pose proof (slot_closed _ _ _ Be Sl) as Cl.
    assert (Sd : forall hd p v, sides hd g p v -> ~ open_in cfg snap e p -> open_in cfg snap e v ->
      hd = HLeft /\ p = p0 /\ v = g').
    { intros hd p v Sd NO O. unfold sides in Sd. rewrite X in Sd. destruct hd; injection Sd as <- <-; [auto|contradiction]. }
    assert (Pair : forall a b b' hs, composed snap n a b -> t_concept p0 = Some (Committed a) \/ indefinite snap a ->
      same_or_reducing snap b b' -> fills os hs -> may_say snap hs b' -> exists hs', fills (o :: os) hs' /\ may_say snap hs' n).
    { intros a b b' hs C T St Fi S. destruct o as [h|].
      - exists (h :: hs). split; [constructor; [reflexivity|exact Fi]|].
        refine (SaysPair _ _ _ _ _ _ _ C _ St S). destruct T as [T|T]; [left|right; exact T].
        destruct Sl as (s & k & -> & _). cbn in T. congruence.
      - exists (a :: hs). split; [constructor; [exact I|exact Fi]|]. exact (SaysPair _ _ _ _ _ _ _ C (or_introl eq_refl) St S). }
    inversion M as [g1 c t X1 _|hd g1 p v c a b b' y S1 NO O Hv T St M'|hd g1 p v c a b t y S1 NO O Hv T St M'
      |hd g1 p v c a b y z S1 NO O Hv T M' _|g1 l r c a b a' b' y r' y' z X1 O1 O2|g1 l r c a b a' b' y r' X1 O1 O2]; subst;
      try congruence.
    - destruct (Sd _ _ _ S1 NO O) as (-> & -> & ->). cbn in Hv.
      destruct (composed_back _ _ _ _ Se Hv) as (x1 & y1 & -> & -> & C).
      destruct (standing_back _ _ _ Se St) as (y2 & -> & St'). destruct (IH _ _ _ Sp' M') as (hs & Fi & S).
      exact (Pair _ _ _ _ C (or_introl T) St' Fi S).
    - destruct (Sd _ _ _ S1 NO O) as (-> & -> & ->). cbn in Hv.
      destruct (composed_back _ _ _ _ Se Hv) as (x1 & y1 & -> & -> & C). destruct St as (q & s1 & s2 & Hs & Et).
      pose proof (tree_shape _ _ _ N LR F _ _ _ _ _ _ Se (JJ _ Hs) Et) as Sh.
      destruct (shape_says _ _ _ _ _ _ _ Sp' Sh M') as (hs & Fi & S).
      exact (Pair _ _ _ _ C (or_introl T) (or_introl eq_refl) Fi S).
    - destruct (Sd _ _ _ S1 NO O) as (-> & -> & ->). cbn in Hv.
      destruct (composed_back _ _ _ _ Se Hv) as (x1 & y1 & -> & -> & C). destruct (IH _ _ _ Sp' M') as (hs & Fi & S).
      exact (Pair _ _ _ _ C (or_intror (free_back _ _ Se T)) (or_introl eq_refl) Fi S).
  Qed.

  (** ** The pattern [cond => (t -> res)] *)
  Lemma put_key x t v : (forall k u, maps_to (es_gen x) k u -> k <> t_key t) -> replaced (es_gen x) t v ->
    match t with TLeaf _ _ _ => v = t | TBranch s c l r fv bv => exists l' r', v = TBranch s c l' r' fv bv /\
      replaced (es_gen x) l l' /\ replaced (es_gen x) r r' end.
  Proof.
    intros K R. inversion R; subst; [exfalso; eapply K; [eassumption|reflexivity]|reflexivity|]. eauto 6.
  Qed.
  Lemma put_pair e vc ta l r u : t_concept vc <> None ->
    put_in cfg snap e (ES [(t_key vc, ta)] []) (new_pair l r) u ->
    exists l' r', t_exp u = Some (l', r') /\ put_in cfg snap e (ES [(t_key vc, ta)] []) l l' /\ put_in cfg snap e (ES [(t_key vc, ta)] []) r r'.
  Proof.
    intros V (v & R & B). apply put_key in R.
    - unfold new_pair, branch in R. destruct (pair_vars l r) as [fv bv]. destruct R as (l' & r' & -> & Rl & Rr).
      inversion B as [t c u' T M| |s c l1 r1 fv' bv' l2 r2 u' _ Bl Br X _]; subst; [destruct M|].
      exists l2, r2. split; [exact X|]. split; [exists l'|exists r']; auto.
    - intros k w [[= <- <-]|[]] Q. unfold new_pair, branch in Q. destruct (pair_vars l r). unfold t_key in Q. cbn in Q.
      injection Q as _ Q. contradiction.
  Qed.
  Lemma put_leaf e vc ta t u : t_key vc <> t_key t -> t_exp t = None -> put_in cfg snap e (ES [(t_key vc, ta)] []) t u -> u = t.
  Proof.
    intros V X (v & R & B). apply put_key in R.
    - destruct t; [|discriminate]. subst v. inversion B as [t' c' u' T M| |]; subst; [destruct M|reflexivity].
    - intros k w [[= <- <-]|[]] Q. contradiction.
  Qed.
  Lemma put_inert e vc ta t : (exists n, t_concept vc = Some (Uncommitted n)) -> inert e t -> forall u,
    put_in cfg snap e (ES [(t_key vc, ta)] []) t u -> inert e u /\ t_concept u = t_concept t.
  Proof.
    intros (n & Tc). induction 1 as [s m k H|s l r fv bv Il IHl Ir IHr C]; intros u Pi.
    - apply put_leaf in Pi; [|unfold t_key; rewrite Tc; intros Q; injection Q as _ Q; discriminate Q|reflexivity]. subst u.
      split; [exact (InertLeaf e s m k H)|reflexivity].
    - destruct Pi as (v & R & B). apply put_key in R.
      2:{ intros q w [[= <- <-]|[]] Q. unfold t_key in Q. cbn in Q. injection Q as _ Q. congruence. }
      destruct R as (l' & r' & -> & Rl & Rr).
      inversion B as [t c u' T M| |s0 c l1 r1 fv' bv' l2 r2 u' _ Bl Br X Pc]; subst; [destruct M|].
      destruct (IHl l2) as [Il2 Tl]; [exists l'; auto|]. destruct (IHr r2) as [Ir2 Tr]; [exists r'; auto|].
      assert (Pq : forall c, pair_concept cfg snap e l2 r2 c -> c = None).
      { intros c Q. apply C. unfold pair_concept in *. rewrite <- Tl, <- Tr. exact Q. }
      destruct u as [|us uc ul ur uf ub]; [discriminate|]. cbn in X, Pc. injection X as -> ->. rewrite (Pq _ Pc).
      split; [exact (InertPair e us l2 r2 uf ub Il2 Ir2 Pq)|reflexivity].
  Qed.
  Lemma put_slot e vc ta o p : (exists n, t_concept vc = Some (Uncommitted n)) -> slot e o p -> forall u,
    put_in cfg snap e (ES [(t_key vc, ta)] []) p u -> slot e o u.
  Proof.
    intros V. destruct o as [h|].
    - intros (s & k & -> & H) u Pi. destruct V as (n & Tc).
      apply put_leaf in Pi; [|unfold t_key; rewrite Tc; intros Q; injection Q as _ Q; discriminate Q|reflexivity]. subst u. exists s, k. auto.
    - intros H u Pi. exact (proj1 (put_inert _ _ _ _ V H _ Pi)).
  Qed.
  Lemma no_example e z x vc vr o1 p1 o2 p2 o3 p3 :
    simple e -> (exists u u', t_concept vc = Some (Uncommitted u) /\ t_concept vr = Some (Uncommitted u') /\ t_key vc <> t_key vr) ->
    t_exp vc = None -> t_exp vr = None -> open_in cfg snap e vc -> open_in cfg snap e vr ->
    slot e o1 p1 -> slot e o2 p2 -> slot e o3 p3 ->
    (forall cond w w' hs, composed snap z cond w -> same_or_reducing snap w w' -> fills [o1; o2; o3] hs -> ~ may_say snap hs w') ->
    ~ matches e (new_pair vc (new_pair p1 (new_pair p2 (new_pair p3 vr)))) (Committed z) x.
  Proof.
    intros Se (u & u' & Tc & Tr & Kv) Xc Xr Oc Or C1 C2 C3 No M.
    set (g3 := new_pair p3 vr) in *. set (g2 := new_pair p2 g3) in *. set (g1 := new_pair p1 g2) in *.
    assert (O1 : open_in cfg snap e g1).
    { repeat (eapply exp_open; [apply new_pair_exp|]). exact Or. }
    pose proof (new_pair_exp vc g1) as X0.
    assert (Sp : forall ta r', put_in cfg snap e (ES [(t_key vc, ta)] []) g1 r' -> spine e [o1; o2; o3] r').
    { assert (Vc : t_concept vc <> None) by congruence. assert (Vu : exists n, t_concept vc = Some (Uncommitted n)) by eauto.
      intros ta r' Pi. unfold g1 in Pi. destruct (put_pair _ _ _ _ _ _ Vc Pi) as (a1 & r1 & Y1 & A1 & Pi1).
      unfold g2 in Pi1. destruct (put_pair _ _ _ _ _ _ Vc Pi1) as (a2 & r2 & Y2 & A2 & Pi2).
      unfold g3 in Pi2. destruct (put_pair _ _ _ _ _ _ Vc Pi2) as (a3 & r3 & Y3 & A3 & Pi3).
      apply put_leaf in Pi3; [|exact Kv|exact Xr]. subst r3.
      eapply SpinePair; [exact Y1|exact (put_slot _ _ _ _ _ Vu C1 _ A1)|]. eapply SpinePair; [exact Y2|exact (put_slot _ _ _ _ _ Vu C2 _ A2)|].
      eapply SpinePair; [exact Y3|exact (put_slot _ _ _ _ _ Vu C3 _ A3)|]. apply SpineEnd; assumption. }
    assert (Sd : forall hd p v, sides hd (new_pair vc g1) p v -> ~ open_in cfg snap e p -> False).
    { intros hd p v Sd NO. unfold sides in Sd. rewrite X0 in Sd. destruct hd; injection Sd as <- <-; contradiction. }
    inversion M as [gg c t X1 _|hd gg p v c a b b' y S1 NO O Hv T St M'|hd gg p v c a b t y S1 NO O Hv T St M'
      |hd gg p v c a b y y' S1 NO O Hv T M' _|gg l r c a b a' b' y r' y' y'' X1 Ol O2 C Sa Ma Pi Sb Or' Mb _
      |gg l r c a b a' b' y r' X1 Ol O2 C Sa Ma Pi Sb Or' _]; subst; try (eapply Sd; eassumption); try congruence.
    - rewrite X0 in X1. injection X1 as <- <-.
      inversion Ma as [gg c t _ _|hd gg p v c aa bb bb' yy S1|hd gg p v c aa bb t yy S1
        |hd gg p v c aa bb yy yy' S1|gg l r c aa bb aa' bb' yy rr' yy' yy'' X1|gg l r c aa bb aa' bb' yy rr' X1]; subst;
        try (unfold sides in S1; congruence); try congruence.
      destruct (composed_back _ _ _ _ Se C) as (ca & w & -> & -> & Cz).
      destruct (standing_back _ _ _ Se Sb) as (w' & -> & Sw).
      destruct (matches_says _ Se _ _ _ _ (Sp _ _ Pi) Mb) as (hs & Fi & Sy). exact (No _ _ _ _ Cz Sw Fi Sy).
    - rewrite X0 in X1. injection X1 as <- <-. apply Or'.
      inversion Ma as [gg c t _ _|hd gg p v c aa bb bb' yy S1|hd gg p v c aa bb t yy S1
        |hd gg p v c aa bb yy yy' S1|gg l r c aa bb aa' bb' yy rr' yy' yy'' X1|gg l r c aa bb aa' bb' yy rr' X1]; subst;
        try (unfold sides in S1; congruence); try congruence.
      eapply spine_open, Sp. exact Pi.
  Qed.
End Patterns.
