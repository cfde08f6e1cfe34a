(** What becomes of the symbols of a command when it is parsed. *)
From Verif Require Import Start Snapshot Search Context LexerSpec LexerFacts NameSpec Names NesterSpec NesterFacts CommandFacts CommandRun
  StoreFacts MapFacts AstFacts RangeFacts Quiet Grouping.
From Coq Require Import String List Bool NArith PeanoNat Lia Permutation.
Import ListNotations.
Local Open Scope zia_scope.

(** ** Specification *)
(** [a] is what is left of [b] when some of its elements are left out. *)
Inductive part_of {A} : list A -> list A -> Prop :=
| PartNil : part_of [] []
| PartTake x a b : part_of a b -> part_of (x :: a) (x :: b)
| PartSkip x a b : part_of a b -> part_of a (x :: b).
(** The leaves of a tree, from left to right: their texts and what they are. *)
Fixpoint tree_symbols (t : tree) : list (text * leafkind) :=
  match t with
  | TLeaf s _ k => [(s, k)]
  | TBranch _ _ l r _ _ => tree_symbols l ++ tree_symbols r
  end.
Definition tree_words (t : tree) : list text := map fst (tree_symbols t).
(** [u] is built from the trees of the list, in this order. *)
Inductive built_from : list tree -> tree -> Prop :=
| BuiltOne t : built_from [t] t
| BuiltPair a b l r u : built_from a l -> built_from b r -> t_exp u = Some (l, r) -> built_from (a ++ b) u.
(** The symbols of a text: the tokens that are neither brackets nor white space. *)
Definition symbol_texts (ts : list (char_class * text)) : list text :=
  flat_map (fun '(k, t) => match k with ClSymbol => [t] | _ => [] end) ts.
(** What is asked, one thing after the other, while a text is read. *)
Inductive event :=
| EPrecedes (a b : cid) (r : option cct)
| EAssoc (t : tree) (a : associativity)
| ECombine (l r u : tree)
| EOrder
| ELeaf (k : leafkind) (s : text) (o : option cid) (u : tree)
| EPair (l r u : tree).
(** From [c], asking just these questions and getting these answers leads to [c']. *)
Inductive asks (cfg : config) (fuel : nat) : ctx -> list event -> ctx -> Prop :=
| AsksNone c : asks cfg fuel c [] c
| AsksPrecedes a b r c c1 es c' : precedes cfg fuel a b c = Ok (Val r, c1) -> asks cfg fuel c1 es c' ->
    asks cfg fuel c (EPrecedes a b r :: es) c'
| AsksAssoc t a c c1 es c' : c_assoc cfg fuel t c = Ok (Val a, c1) -> asks cfg fuel c1 es c' ->
    asks cfg fuel c (EAssoc t a :: es) c'
| AsksCombine l r u c c1 es c' : c_combine cfg fuel l r c = Ok (Val u, c1) -> asks cfg fuel c1 es c' ->
    asks cfg fuel c (ECombine l r u :: es) c'
| AsksOrder {A} (l l' : list A) c c1 es c' : c_shuffle cfg l c = Ok (Val l', c1) -> asks cfg fuel c1 es c' ->
    asks cfg fuel c (EOrder :: es) c'
| AsksLeaf k s o u c c1 es c' : ast_from_syntax_leaf cfg fuel k s o c = Ok (Val u, c1) -> asks cfg fuel c1 es c' ->
    asks cfg fuel c (ELeaf k s o u :: es) c'
| AsksPair l r u c c1 es c' : ast_from_pair cfg fuel l r c = Ok (Val u, c1) -> asks cfg fuel c1 es c' ->
    asks cfg fuel c (EPair l r u :: es) c'.
(** No expression was found to be left-associative. *)
Definition no_left (es : list event) : Prop := forall t, ~ In (EAssoc t ALeft) es.
(** All questions of precedence and associativity are about the given tokens. *)
Definition about (ts : list tree) (es : list event) : Prop :=
  forall e, In e es -> match e with
    | EPrecedes a b _ => (exists t, In t ts /\ t_concept t = Some a) /\ exists t, In t ts /\ t_concept t = Some b
    | EAssoc t _ => In t ts
    | ELeaf _ _ _ _ | EPair _ _ _ => False
    | _ => True
    end.
(** The associativity of nothing but expressions made of these words was asked for. *)
Definition among (ws : list text) (es : list event) : Prop :=
  forall t a, In (EAssoc t a) es -> part_of (tree_words t) ws.

(** [c1] is [c] with some more symbols, strings and variables recorded, and with other caches. *)
Definition more_names (c c1 : ctx) : Prop :=
  c_snap c1 = c_snap c /\ exists l, pending c1 = (pending c ++ l)%list /\ Forall (fun p => naming (snd p)) l.
(** ** Parts of lists *)
Lemma part_refl {A} (a : list A) : part_of a a.
Proof. induction a; constructor; assumption. Qed.
Lemma part_nil {A} (b : list A) : part_of [] b.
Proof. induction b; constructor; assumption. Qed.
Lemma part_app {A} (a b c d : list A) : part_of a b -> part_of c d -> part_of (a ++ c) (b ++ d).
Proof. intros H K. induction H; cbn; [exact K|now constructor|now constructor]. Qed.
Lemma part_trans {A} (a b c : list A) : part_of a b -> part_of b c -> part_of a c.
Proof.
  intros H K. revert a H. induction K as [|x b c K IH|x b c K IH]; intros a H.
  - exact H.
  - inversion H; subst; constructor; apply IH; assumption.
  - constructor. apply IH, H.
Qed.
Lemma part_in {A} (a b : list A) x : part_of a b -> In x a -> In x b.
Proof. intros H. induction H; cbn; intuition. Qed.
Lemma part_firstn {A} n (l : list A) : part_of (firstn n l) l.
Proof. rewrite <- (firstn_skipn n l) at 2. rewrite <- (app_nil_r (firstn n l)) at 1. apply part_app; [apply part_refl|apply part_nil]. Qed.
Lemma skip_skip {A} a b (l : list A) : skipn a (skipn b l) = skipn (b + a) l.
Proof. revert l. induction b as [|b IH]; intros l; [reflexivity|]. destruct l; [now rewrite !skipn_nil|]. cbn. apply IH. Qed.
Lemma slice_split {A} (l : list A) i j sl : slice l i j = Ok sl ->
  le i j /\ le j (length l) /\ skipn i l = (sl ++ skipn j l)%list /\ firstn j l = (firstn i l ++ sl)%list /\
  length sl = j - i.
Proof.
  unfold slice. destruct (Nat.leb_spec i j); [|discriminate]. destruct (Nat.leb_spec j (length l)); [|discriminate].
  intros [= <-]. split; [assumption|]. split; [assumption|].
  assert (S : skipn i l = (firstn (j - i) (skipn i l) ++ skipn j l)%list).
  { replace (skipn j l) with (skipn (j - i) (skipn i l)).
    - symmetry. apply firstn_skipn.
    - rewrite skip_skip. f_equal. lia. }
  split; [exact S|]. split.
  - replace j with (i + (j - i)) at 1 by lia. rewrite <- (firstn_skipn i l) at 1.
    rewrite firstn_app, firstn_firstn. rewrite firstn_length.
    replace (Nat.min (i + (j - i)) i) with i by lia. replace (i + (j - i) - Nat.min i (length l)) with (j - i) by lia.
    reflexivity.
  - rewrite firstn_length, skipn_length. lia.
Qed.

(** ** Parsing lists *)
Section Keeping.
  Variable cfg : config.
  Variable fuel : nat.
  Hypothesis F : fair cfg.
  Hypothesis PC : forall l r c u c', c_combine cfg fuel l r c = Ok (Val u, c') -> t_exp u = Some (l, r).

  Definition unmoved (c c' : ctx) : Prop := c_snap c' = c_snap c /\ c_delta c' = c_delta c.
  Definition unmoving {A} (m : CM A) : Prop := forall c r c', m c = Ok (r, c') -> unmoved c c'.
  Lemma unmoved_trans c1 c2 c3 : unmoved c1 c2 -> unmoved c2 c3 -> unmoved c1 c3.
  Proof. intros [] []. split; congruence. Qed.
  Lemma unmoving_ret {A} (a : A) : unmoving (cret a).
  Proof. intros c r c' [= <- <-]. split; reflexivity. Qed.
  Lemma unmoving_fail {A} e : unmoving (cfail e : CM A).
  Proof. intros c r c' [= <- <-]. split; reflexivity. Qed.
  Lemma unmoving_lift {A} (f : ctx -> outcome A) : unmoving (clift f).
  Proof. intros c r c' E. apply lift_back in E. destruct E as [-> _]. split; reflexivity. Qed.
  Lemma unmoving_search {A} (f : ctx -> env -> SM A) : unmoving (fun c => with_search (f c) c).
  Proof. intros c r c' E. unfold with_search in E. destruct (f c _ _) as [[a s]| | |]; try discriminate; injection E as <- <-; split; reflexivity. Qed.
  Lemma unmoving_bind {A B} (m : CM A) (f : A -> CM B) : unmoving m -> (forall a, unmoving (f a)) -> unmoving (cbind m f).
  Proof.
    intros H K c r c' E. apply bind_back in E. destruct E as (x & c1 & E1 & E2). apply H in E1. destruct x as [a|e].
    - apply K in E2. eapply unmoved_trans; eassumption.
    - destruct E2 as [_ ->]. exact E1.
  Qed.
  Lemma unmoving_fuel {A} : unmoving (fun _ => OutOfFuel : outcome (zres A * ctx)).
  Proof. intros c r c' E. discriminate. Qed.
  Lemma unmoving_combine l r : unmoving (c_combine cfg fuel l r). Proof. apply unmoving_search. Qed.
  Lemma unmoving_assoc t : unmoving (c_assoc cfg fuel t). Proof. apply unmoving_search. Qed.
  Lemma unmoving_type t : unmoving (c_concrete_type_of cfg t).
  Proof. unfold c_concrete_type_of. destruct (t_concept t); [apply unmoving_lift|apply unmoving_ret]. Qed.
  Lemma unmoving_shuffle {A} (l : list A) : unmoving (c_shuffle cfg l).
  Proof. apply (unmoving_search (fun _ _ => shuffle cfg l)). Qed.
  Lemma unmoving_related ids entries : forall acc, unmoving (related_concepts cfg ids entries acc).
  Proof.
    induction entries as [|[y comp] entries IH]; intros acc; cbn [related_concepts]; [apply unmoving_ret|].
    apply unmoving_bind; [apply unmoving_lift|]. intros m. apply IH.
  Qed.
  Lemma unmoving_precedes a b : unmoving (precedes cfg fuel a b).
  Proof. unfold precedes. apply unmoving_bind; [|intros t; apply unmoving_type]. apply (unmoving_search (fun c e => _)). Qed.
  Lemma unmoving_place x all lowest : unmoving (place_concept cfg fuel x all lowest).
  Proof.
    induction lowest as [|l lowest IH]; cbn [place_concept]; [apply unmoving_ret|].
    assert (P : forall s, unmoving (clift (fun _ => Panic s) : CM (option (list cid)))) by (intros s; apply unmoving_lift).
    assert (R : forall o, unmoving (cret o : CM (option (list cid)))) by (intros o; apply unmoving_ret).
    apply unmoving_bind; [apply unmoving_precedes|]. intros [[]|]; auto; apply unmoving_bind; try apply unmoving_precedes;
      intros [[]|]; auto.
  Qed.
  Lemma unmoving_lowest cs : forall lowest, unmoving (lowest_concepts cfg fuel cs lowest).
  Proof.
    induction cs as [|x cs IH]; intros lowest; cbn [lowest_concepts]; [apply unmoving_ret|].
    apply unmoving_bind; [apply unmoving_shuffle|]. intros o. apply unmoving_bind; [apply unmoving_place|]. intros r. apply IH.
  Qed.
  Lemma unmoving_positions ts cs : unmoving (positions_of cfg ts cs).
  Proof.
    induction cs as [|x cs IH]; cbn [positions_of]; [apply unmoving_ret|].
    apply unmoving_bind; [apply unmoving_shuffle|]. intros o. apply unmoving_bind; [apply IH|]. intros r. apply unmoving_ret.
  Qed.
  Lemma unmoving_info ts : unmoving (lowest_precedence_info cfg fuel ts).
  Proof.
    unfold lowest_precedence_info. apply unmoving_bind; [apply unmoving_lift|]. intros p.
    apply unmoving_bind; [apply unmoving_lift|]. intros q. apply unmoving_bind; [apply unmoving_lift|]. intros m.
    apply unmoving_bind; [apply unmoving_related|]. intros rel. apply unmoving_bind; [apply unmoving_shuffle|]. intros o.
    apply unmoving_bind; [apply unmoving_lowest|]. intros [|l ls].
    - apply unmoving_bind; [apply unmoving_positions|]. intros ps. apply unmoving_ret.
    - apply unmoving_bind; [apply unmoving_shuffle|]. intros o2. apply unmoving_bind; [apply unmoving_positions|]. intros ps. apply unmoving_ret.
  Qed.
  Lemma unmoving_common ts : forall a, unmoving (common_associativity cfg fuel a ts).
  Proof.
    induction ts as [|t ts IH]; intros a; cbn [common_associativity]; [apply unmoving_ret|].
    apply unmoving_bind; [apply unmoving_assoc|]. intros x. destruct a as [y|]; [|apply IH].
    destruct (associativity_eqb x y); [apply IH|apply unmoving_fail].
  Qed.

  (** *** Questions asked in turn *)
  Notation asks := (asks cfg fuel).
  Lemma asks_app c es c1 : asks c es c1 -> forall es' c', asks c1 es' c' -> asks c (es ++ es') c'.
  Proof. intros H. induction H; intros es' d K; cbn [app]; [exact K|econstructor; eauto..]. Qed.
  Lemma about_app ts a b : about ts a -> about ts b -> about ts (a ++ b).
  Proof. intros H K e I. apply in_app_iff in I. destruct I as [I|I]; [apply H, I|apply K, I]. Qed.
  Lemma about_nil ts : about ts [].
  Proof. intros e []. Qed.
  Lemma about_one ts e : about ts [e] <-> match e with
    | EPrecedes a b _ => (exists t, In t ts /\ t_concept t = Some a) /\ exists t, In t ts /\ t_concept t = Some b
    | EAssoc t _ => In t ts
    | ELeaf _ _ _ _ | EPair _ _ _ => False
    | _ => True
    end.
  Proof. split; [intros H; apply (H e); now left|]. intros H x [<-|[]]. exact H. Qed.
  Lemma about_sub a b es : (forall t, In t a -> In t b) -> about a es -> about b es.
  Proof.
    intros S H e I. specialize (H e I). destruct e; try exact H; [|apply S, H]. destruct H as [(x & X & X') (y & Y & Y')]. split; [exists x|exists y]; auto.
  Qed.
  Lemma asks_unmoved c es c' : asks c es c' -> (forall k s o u, ~ In (ELeaf k s o u) es) ->
    (forall l r u, ~ In (EPair l r u) es) -> unmoved c c'.
  Proof.
    intros H. induction H as [|? ? ? ? ? ? ? E H IH|? ? ? ? ? ? E H IH|? ? ? ? ? ? ? E H IH|? ? ? ? ? ? ? E H IH|? ? ? ? ? ? ? ? E H IH|? ? ? ? ? ? ? E H IH];
      intros N M; [split; reflexivity|..]; try (refine (unmoved_trans _ _ _ _ (IH _ _));
      [|intros; intros I; eapply N; right; exact I|intros; intros I; eapply M; right; exact I]).
    - eapply unmoving_precedes, E.
    - eapply unmoving_assoc, E.
    - eapply unmoving_combine, E.
    - eapply unmoving_shuffle, E.
    - exfalso. eapply N. left. reflexivity.
    - exfalso. eapply M. left. reflexivity.
  Qed.
  Lemma about_unmoved ts c es c' : asks c es c' -> about ts es -> unmoved c c'.
  Proof. intros H A. eapply asks_unmoved; [exact H|..]; intros; intros I; exact (A _ I). Qed.
  (** Each run of [m] asks some questions about [ts]; [P] holds of them and of its value. *)
  Definition traced {A} (ts : list tree) (m : CM A) (P : list event -> A -> Prop) : Prop :=
    forall c a c', m c = Ok (Val a, c') -> exists es, asks c es c' /\ about ts es /\ P es a.
  Lemma traced_ret {A} ts (a : A) (P : list event -> A -> Prop) : P [] a -> traced ts (cret a) P.
  Proof. intros H c b c' [= <- <-]. exists []. split; [constructor|]. split; [apply about_nil|exact H]. Qed.
  Lemma traced_lift {A} ts (f : ctx -> outcome A) (P : list event -> A -> Prop) : (forall a, P [] a) -> traced ts (clift f) P.
  Proof. intros H c a c' E. apply lift_back in E. destruct E as [-> _]. exists []. split; [constructor|]. split; [apply about_nil|apply H]. Qed.
  Lemma traced_bind {A B} ts (m : CM A) (f : A -> CM B) P (Q : list event -> B -> Prop) :
    traced ts m P -> (forall es a, P es a -> traced ts (f a) (fun es' => Q (es ++ es')%list)) -> traced ts (cbind m f) Q.
  Proof.
    intros H K c b c' E. apply bind_back in E. destruct E as ([a|x] & c1 & E1 & E); [|destruct E as [E _]; discriminate E].
    apply H in E1. destruct E1 as (es & A1 & A2 & A3). apply (K es a A3) in E. destruct E as (es' & B1 & B2 & B3).
    exists (es ++ es')%list. split; [eapply asks_app; eassumption|]. split; [apply about_app; assumption|exact B3].
  Qed.
  Lemma traced_weaken {A} ts (m : CM A) (P Q : list event -> A -> Prop) : traced ts m P -> (forall es a, P es a -> Q es a) -> traced ts m Q.
  Proof. intros H K c a c' E. apply H in E. destruct E as (es & E1 & E2 & E3). eauto. Qed.
  Lemma traced_shuffle {A} ts (l : list A) : traced ts (c_shuffle cfg l) (fun es _ => es = [EOrder]).
  Proof.
    intros c a c' E. exists [EOrder]. split; [eapply AsksOrder; [exact E|constructor]|]. split; [now apply about_one|reflexivity].
  Qed.
  Definition no_assoc (es : list event) : Prop := forall t a, ~ In (EAssoc t a) es.
  Lemma no_assoc_app a b : no_assoc a -> no_assoc b -> no_assoc (a ++ b).
  Proof. intros H K t x I. apply in_app_iff in I. destruct I as [I|I]; [eapply H, I|eapply K, I]. Qed.
  Lemma no_assoc_nil : no_assoc [].
  Proof. intros t a []. Qed.
  Lemma no_assoc_order : no_assoc [EOrder].
  Proof. intros t a [E|[]]. discriminate E. Qed.
  Lemma traced_precedes ts a b : In a (concept_ids ts) -> In b (concept_ids ts) ->
    traced ts (precedes cfg fuel a b) (fun es r => es = [EPrecedes a b r]).
  Proof.
    intros A B c r c' E. exists [EPrecedes a b r]. split; [eapply AsksPrecedes; [exact E|constructor]|]. split; [|reflexivity].
    apply about_one. apply concept_ids_in in A, B. auto.
  Qed.
  Ltac silent := repeat (apply no_assoc_app || apply no_assoc_nil || apply no_assoc_order || assumption);
    try (let X := fresh in intros ? ? [X|[]]; discriminate X).
  Lemma ids_fold ids x : forall (l : list (cid * cid)) acc,
    In x (fold_left (fun acc '(y, _) => if smem cid_eqb y ids then sadd cid_eqb y acc else acc) l acc) -> In x acc \/ In x ids.
  Proof.
    induction l as [|[y w] l IH]; intros acc; cbn [fold_left]; [auto|]. intros I. apply IH in I. destruct I as [I|I]; [|auto].
    destruct (smem cid_eqb y ids) eqn:M; [|auto]. apply (smem_In cid_eqb cid_eqb_spec) in M.
    apply (sadd_In cid_eqb cid_eqb_spec) in I. destruct I as [->|I]; auto.
  Qed.
  Lemma traced_related ts ids entries : forall acc, (forall x, In x acc -> In x ids) ->
    traced ts (related_concepts cfg ids entries acc) (fun es l => es = [] /\ forall x, In x l -> In x ids).
  Proof.
    induction entries as [|[y comp] entries IH]; intros acc A; cbn [related_concepts]; [apply traced_ret; auto|].
    eapply traced_bind; [apply (traced_lift _ _ (fun es _ => es = [])); reflexivity|]. intros es m ->. cbn [app].
    apply IH. intros x I. apply ids_fold in I. destruct I as [I|I]; [|exact I].
    destruct (smem cid_eqb y ids) eqn:M; [|auto]. apply (smem_In cid_eqb cid_eqb_spec) in M.
    apply (sadd_In cid_eqb cid_eqb_spec) in I. destruct I as [->|I]; auto.
  Qed.
  Lemma traced_place ts x all : In x (concept_ids ts) -> (forall y, In y all -> In y (concept_ids ts)) -> forall low,
    (forall y, In y low -> In y (concept_ids ts)) ->
    traced ts (place_concept cfg fuel x all low) (fun es r => no_assoc es /\ forall l, r = Some l -> forall y, In y l -> In y (concept_ids ts)).
  Proof.
    intros X A low. induction low as [|l low IH]; intros L; cbn [place_concept].
    - apply traced_ret. split; [silent|discriminate].
    - assert (IH' := IH (fun y I => L y (or_intror I))). assert (LL := L l (or_introl eq_refl)).
      assert (RT : forall es r, no_assoc es -> (forall l, r = Some l -> forall y, In y l -> In y (concept_ids ts)) ->
        traced ts (cret r) (fun es' (r : option (list cid)) => no_assoc (es ++ es') /\ forall l, r = Some l -> forall y, In y l -> In y (concept_ids ts))).
      { intros es r N R. apply traced_ret. split; [silent|exact R]. }
      assert (PN : forall es site, no_assoc es ->
        traced ts (clift (fun _ => Panic site)) (fun es' (r : option (list cid)) => no_assoc (es ++ es') /\ forall l, r = Some l -> forall y, In y l -> In y (concept_ids ts))).
      { intros es site N c a c' E. discriminate E. }
      assert (GO : forall es, no_assoc es -> traced ts (place_concept cfg fuel x all low)
        (fun es' (r : option (list cid)) => no_assoc (es ++ es') /\ forall l, r = Some l -> forall y, In y l -> In y (concept_ids ts))).
      { intros es N. eapply traced_weaken; [exact IH'|]. intros es' r [H K]. split; [silent|exact K]. }
      assert (NP : forall a b r, no_assoc [EPrecedes a b r]) by (intros; silent).
      assert (S1 : forall l0, Some [x] = Some l0 -> forall y, In y l0 -> In y (concept_ids ts)) by (intros l0 [= <-] y [<-|[]]; exact X).
      assert (S2 : forall l0, Some all = Some l0 -> forall y, In y l0 -> In y (concept_ids ts)) by (intros l0 [= <-]; exact A).
      assert (S3 : forall l0, Some (sadd cid_eqb x all) = Some l0 -> forall y, In y l0 -> In y (concept_ids ts)).
      { intros l0 [= <-] y I. apply (sadd_In cid_eqb cid_eqb_spec) in I. destruct I as [->|I]; auto. }
      eapply traced_bind; [apply traced_precedes; assumption|]. intros es r ->.
      assert (N1 := NP x l r).
      destruct r as [[]|]; try (apply PN; assumption); try (apply RT; assumption);
        (eapply traced_bind; [apply traced_precedes; assumption|]); intros es r ->;
        match goal with |- context [EPrecedes l x ?r] => assert (N2 := NP l x r); destruct r as [[]|] end;
        eapply traced_weaken;
        try (apply PN; exact (no_assoc_app _ _ N1 N2)); try (apply RT; [exact (no_assoc_app _ _ N1 N2)|assumption]);
        try (apply GO; exact (no_assoc_app _ _ N1 N2)); cbn beta; intros ? ? H; rewrite <- app_assoc in H; exact H.
  Qed.
  Lemma traced_lowest ts cs : forall low, (forall y, In y cs -> In y (concept_ids ts)) -> (forall y, In y low -> In y (concept_ids ts)) ->
    traced ts (lowest_concepts cfg fuel cs low) (fun es _ => no_assoc es).
  Proof.
    induction cs as [|x cs IH]; intros low C L; cbn [lowest_concepts]; [apply traced_ret; silent|].
    intros c a c' E. apply bind_back in E. destruct E as ([o|e] & c1 & E1 & E); [|destruct E as [E _]; discriminate E].
    pose proof E1 as E0. apply (shuffle_run cfg F) in E1. destruct E1 as (l' & [= <-] & PM & _ & _).
    apply (traced_shuffle ts) in E0. destruct E0 as (es1 & A1 & A2 & ->).
    apply bind_back in E. destruct E as ([r|e] & c2 & E2 & E); [|destruct E as [E _]; discriminate E].
    apply (traced_place ts) in E2; [|apply C; now left|exact L|intros y I; apply L; eapply Permutation_in; eassumption].
    destruct E2 as (es2 & B1 & B2 & B3 & B4). apply IH in E; [|intros y I; apply C; now right|].
    - destruct E as (es3 & C1 & C2 & C3). exists ([EOrder] ++ es2 ++ es3)%list.
      split; [eapply asks_app; [exact A1|]; eapply asks_app; eassumption|]. split; [repeat apply about_app; assumption|silent].
    - destruct r as [l|]; [exact (B4 l eq_refl)|]. intros y I. apply (sadd_In cid_eqb cid_eqb_spec) in I. destruct I as [->|I]; [apply C; now left|auto].
  Qed.
  Lemma traced_positions ts us cs : traced ts (positions_of cfg us cs) (fun es ps => no_assoc es /\ forall i, In i ps -> lt i (length us)).
  Proof.
    induction cs as [|x cs IH]; cbn [positions_of]; [apply traced_ret; split; [silent|intros i []]|].
    eapply (traced_bind ts _ _ (fun es o => es = [EOrder] /\ forall i, In i o -> lt i (length us))).
    { intros c o c' E. pose proof E as E0. apply (traced_shuffle ts) in E0. destruct E0 as (es & A & B & ->). exists [EOrder].
      split; [exact A|]. split; [exact B|]. split; [reflexivity|]. apply (shuffle_run cfg F) in E.
      destruct E as (o' & [= <-] & PM & _). intros i I. apply (Permutation_in _ PM), indices_of_in in I.
      destruct I as (t & N & _). apply nth_error_Some. congruence. }
    intros es o [-> O]. eapply traced_bind; [apply IH|]. cbn beta. intros es r [N R]. apply traced_ret. split; [silent|].
    intros i I. apply in_app_iff in I. destruct I as [I|I]; [apply O, I|apply R, I].
  Qed.
  Lemma syntax_in (ts : list tree) ps t : In t (syntax_at ts ps) -> In t ts.
  Proof.
    unfold syntax_at. intros I. apply in_flat_map in I. destruct I as (i & _ & I). destruct (nth_error ts i) eqn:E; [|destruct I].
    destruct I as [<-|[]]. eapply nth_error_In, E.
  Qed.
  Lemma traced_info ts : traced ts (lowest_precedence_info cfg fuel ts) (fun es info => no_assoc es /\ (forall t, In t (ts_syntax info) -> In t ts) /\
    forall p, In p (ts_positions info) -> lt p (length ts)).
  Proof.
    intros c info c' E. unfold lowest_precedence_info, c_concrete_id, c_read in E.
    apply bind_back in E. destruct E as ([p|e] & c1 & E1 & E); [|destruct E as [E _]; discriminate E].
    apply lift_back in E1. destruct E1 as [-> _].
    apply bind_back in E. destruct E as ([q|e] & c1 & E1 & E); [|destruct E as [E _]; discriminate E].
    apply lift_back in E1. destruct E1 as [-> _].
    apply bind_back in E. destruct E as ([m|e] & c1 & E1 & E); [|destruct E as [E _]; discriminate E].
    apply lift_back in E1. destruct E1 as [-> _].
    apply bind_back in E. destruct E as ([rel|e] & c1 & E1 & E); [|destruct E as [E _]; discriminate E].
    apply (traced_related ts) in E1; [|intros x []]. destruct E1 as (es0 & A1 & A2 & -> & A3).
    apply bind_back in E. destruct E as ([o|e] & c2 & E2 & E); [|destruct E as [E _]; discriminate E].
    pose proof E2 as E0. apply (shuffle_run cfg F) in E2. destruct E2 as (l' & [= <-] & PM & _ & _).
    apply (traced_shuffle ts) in E0. destruct E0 as (es1 & B1 & B2 & ->).
    apply bind_back in E. destruct E as ([low|e] & c3 & E3 & E); [|destruct E as [E _]; discriminate E].
    apply (traced_lowest ts) in E3; [|intros y I; apply A3; eapply Permutation_in; eassumption|intros y []].
    destruct E3 as (es2 & C1 & C2 & C3).
    assert (REST : exists es3, asks c3 es3 c' /\ about ts es3 /\ no_assoc es3 /\ (forall t, In t (ts_syntax info) -> In t ts) /\
      forall p, In p (ts_positions info) -> lt p (length ts)).
    { destruct low as [|l0 low].
      - apply bind_back in E. destruct E as ([ps|e] & c4 & E4 & E); [|destruct E as [E _]; discriminate E].
        apply (traced_positions ts) in E4. destruct E4 as (es3 & D1 & D2 & D3 & DP). injection E as <- <-. exists es3.
        split; [exact D1|]. split; [exact D2|]. split; [exact D3|]. cbn [ts_syntax ts_positions]. split; [intros t I; try (rewrite in_app_iff in I; destruct I as [I|I]); eapply syntax_in, I|].
        intros i I. apply in_app_iff in I. destruct I as [I|I]; [|apply DP, I]. apply indices_without_in in I. destruct I as (t & N & _). apply nth_error_Some. congruence.
      - apply bind_back in E. destruct E as ([o2|e] & c4 & E4 & E); [|destruct E as [E _]; discriminate E].
        apply (traced_shuffle ts) in E4. destruct E4 as (es4 & G1 & G2 & ->).
        apply bind_back in E. destruct E as ([ps|e] & c5 & E5 & E); [|destruct E as [E _]; discriminate E].
        apply (traced_positions ts) in E5. destruct E5 as (es3 & D1 & D2 & D3 & DP). injection E as <- <-. exists ([EOrder] ++ es3)%list.
        split; [eapply asks_app; eassumption|]. split; [now apply about_app|]. split; [silent|]. cbn [ts_syntax ts_positions]. split; [intros t I; eapply syntax_in, I|exact DP]. }
    destruct REST as (es3 & D1 & D2 & D3 & D4). exists ([] ++ [EOrder] ++ es2 ++ es3)%list.
    split; [eapply asks_app; [exact A1|]; eapply asks_app; [exact B1|]; eapply asks_app; eassumption|].
    split; [repeat apply about_app; assumption|]. split; [silent|exact D4].
  Qed.
  Lemma left_app a b : no_left (a ++ b) <-> no_left a /\ no_left b.
  Proof.
    unfold no_left. split.
    - intros H. split; intros t I; apply (H t), in_app_iff; auto.
    - intros [H K] t I. apply in_app_iff in I. destruct I as [I|I]; [exact (H t I)|exact (K t I)].
  Qed.
  Lemma left_nil : no_left [].
  Proof. intros t []. Qed.
  Lemma left_order : no_left [EOrder].
  Proof. intros t [X|[]]. discriminate X. Qed.
  Lemma left_combine l r u : no_left [ECombine l r u].
  Proof. intros t [X|[]]. discriminate X. Qed.
  Lemma left_silent es : no_assoc es -> no_left es.
  Proof. intros H t. apply H. Qed.
  Lemma left_dec es : no_left es \/ ~ no_left es.
  Proof.
    induction es as [|e es IH]; [left; apply left_nil|]. change (e :: es) with ([e] ++ es)%list. rewrite left_app.
    assert (D : no_left [e] \/ ~ no_left [e]).
    { destruct e as [| t [] | | | |]; try (left; intros z [X|[]]; discriminate X). right. intros H. apply (H t). now left. }
    tauto.
  Qed.
  (** The common associativity is found to be [left] exactly if that of some token is. *)
  Lemma traced_common ts us : (forall t, In t us -> In t ts) -> forall a,
    traced ts (common_associativity cfg fuel a us) (fun es r =>
      (r = Some ALeft -> a <> Some ALeft -> ~ no_left es) /\ (r = Some ARight -> no_left es) /\ forall x, a = Some x -> r = Some x).
  Proof.
    intros S. induction us as [|t us IH]; intros a; cbn [common_associativity].
    - apply traced_ret. split; [congruence|]. split; [intros _; apply left_nil|auto].
    - assert (ST : In t ts) by (apply S; now left). assert (IH' := IH (fun u I => S u (or_intror I))). clear IH.
      eapply (traced_bind ts _ _ (fun es x => es = [EAssoc t x])).
      { intros c x c' E. exists [EAssoc t x]. split; [eapply AsksAssoc; [exact E|constructor]|]. split; [now apply about_one|reflexivity]. }
      intros es x ->.
      assert (GO : (forall y, a = Some y -> x = y) -> traced ts (common_associativity cfg fuel (Some x) us)
        (fun es' r => (r = Some ALeft -> a <> Some ALeft -> ~ no_left ([EAssoc t x] ++ es')) /\
          (r = Some ARight -> no_left ([EAssoc t x] ++ es')) /\ forall y, a = Some y -> r = Some y)).
      { intros B. eapply traced_weaken; [apply IH'|]. cbn beta. intros es r (H1 & H2 & H3). specialize (H3 x eq_refl). subst r. split; [|split].
        - intros [= ->] A N. apply (N t). now left.
        - intros [= ->]. apply left_app. split; [intros z [X|[]]; discriminate X|auto].
        - intros y A. now rewrite (B y A). }
      destruct a as [y|].
      + destruct (associativity_eqb x y) eqn:Q; [|intros c r c' E; discriminate E]. apply GO. intros z [= <-]. destruct x, y; try reflexivity; discriminate Q.
      + apply GO. discriminate.
  Qed.

  (** *** What becomes of the tokens *)
  Definition kept (es : list event) (ts : list tree) (u : tree) : Prop :=
    exists k, part_of k ts /\ built_from k u /\ (no_left es <-> k = ts).
  Lemma kept_same a b ts u : (no_left a <-> no_left b) -> kept a ts u -> kept b ts u.
  Proof. intros I (k & P & B & E). exists k. split; [exact P|]. split; [exact B|]. tauto. Qed.
  Lemma kept_one es t : no_left es -> kept es [t] t.
  Proof. intros N. exists [t]. split; [apply part_refl|]. split; [constructor|tauto]. Qed.
  Lemma part_length {A} (a b : list A) : part_of a b -> le (length a) (length b).
  Proof. intros H. induction H; cbn; lia. Qed.
  Lemma part_full {A} (a b : list A) : part_of a b -> length a = length b -> a = b.
  Proof.
    intros H. induction H as [|x a b H IH|x a b H IH]; cbn; intros E; [reflexivity|f_equal; apply IH; lia|].
    apply part_length in H. lia.
  Qed.
  Lemma part_both {A} (a b c d : list A) : part_of a b -> part_of c d -> (a ++ c = b ++ d <-> a = b /\ c = d)%list.
  Proof.
    intros H K. split; [|intros [-> ->]; reflexivity]. intros E. apply (f_equal (@length A)) in E. rewrite !app_length in E.
    pose proof (part_length _ _ H). pose proof (part_length _ _ K). split; apply part_full; auto; lia.
  Qed.
  Lemma kept_pair es e1 e2 a b l r u : kept e1 a l -> kept e2 b r -> t_exp u = Some (l, r) -> (no_left es <-> no_left e1 /\ no_left e2) ->
    kept es (a ++ b) u.
  Proof.
    intros (k1 & P1 & B1 & E1) (k2 & P2 & B2 & E2) X S. exists (k1 ++ k2)%list. split; [now apply part_app|].
    split; [eapply BuiltPair; eassumption|]. rewrite (part_both _ _ _ _ P1 P2). tauto.
  Qed.
  Ltac lefts := rewrite ?left_app; pose proof left_nil; pose proof left_order; pose proof left_combine; intuition.
  Lemma traced_combine ts l r : traced ts (c_combine cfg fuel l r) (fun es u => es = [ECombine l r u] /\ t_exp u = Some (l, r)).
  Proof.
    intros c u c' E. exists [ECombine l r u]. split; [eapply AsksCombine; [exact E|constructor]|]. split; [now apply about_one|].
    split; [reflexivity|]. eapply PC, E.
  Qed.

  Section Fold.
    Variable parse : list tree -> CM tree.
    Variable ts : list tree.
    Hypothesis H : forall sub, (forall t, In t sub -> In t ts) -> traced ts (parse sub) (fun es u => kept es sub u).
    Lemma sub_in a b sl : slice ts a b = Ok sl -> forall t, In t sl -> In t ts.
    Proof.
      intros S t I. apply slice_split in S. destruct S as (_ & _ & S & _). rewrite <- (firstn_skipn a ts), S.
      rewrite !in_app_iff. auto.
    Qed.
    Lemma handler_right st es0 lp :
      (forall e p, st = Some (e, p) -> kept es0 (skipn p ts) e) -> (st = None -> no_left es0) ->
      traced ts (try_fold_handler cfg fuel parse ts st lp ARight) (fun es '(t, k) => k = lp /\ kept (es0 ++ es) (skipn lp ts) t).
    Proof.
      intros ST SN c1 [t k] c' E. unfold try_fold_handler in E. apply bind_back in E. destruct E as (x & c2 & E1 & E).
      pose proof E1 as E1'. apply lift_back in E1'. destruct E1' as [-> E1']. clear E1.
      destruct x as [sl|x]; [|destruct E as [E _]; discriminate E].
      destruct sl as [|first rest] eqn:SL; [discriminate E|]. rewrite <- SL in *.
      assert (W : exists q, slice ts lp q = Ok sl /\
        (st = None /\ q = length ts \/ exists e, st = Some (e, q))).
      { destruct st as [[e q]|]; cbn in E1'; [exists q; eauto|exists (length ts); auto]. }
      destruct W as (q & S & W). pose proof (slice_split _ _ _ _ S) as (L1 & L2 & S1 & _ & S3).
      apply bind_back in E. destruct E as (x & c2 & E2 & E). destruct x as [w|x]; [|destruct E as [E _]; discriminate E].
      assert (K : exists es, asks c1 es c2 /\ about ts es /\ kept es sl w).
      { destruct (Nat.eqb_spec lp 0) as [->|N].
        - rewrite SL in E2. cbn [nth] in E2. destruct rest as [|second rest].
          + cbn in E2. injection E2 as <- <-. exists []. split; [constructor|]. split; [apply about_nil|]. rewrite SL. apply kept_one, left_nil.
          + replace (Nat.eqb (length (first :: second :: rest)) 1) with false in E2 by reflexivity.
            apply bind_back in E2. destruct E2 as (r & c3 & E2 & E3). destruct r as [r|r]; [|destruct E3 as [E3 _]; discriminate E3].
            assert (K : exists es, asks c1 es c3 /\ about ts es /\ kept es (second :: rest) r).
            { destruct rest as [|third rest].
              - cbn in E2. injection E2 as <- <-. exists []. split; [constructor|]. split; [apply about_nil|apply kept_one, left_nil].
              - replace (Nat.ltb (length (first :: second :: third :: rest)) 3) with false in E2 by reflexivity.
                apply H in E2; [exact E2|]. intros z Z. eapply sub_in; [exact S|]. rewrite SL. now right. }
            destruct K as (es & K1 & K2 & K3). apply (traced_combine ts) in E3. destruct E3 as (es' & M1 & M2 & -> & M3).
            exists (es ++ [ECombine first r w])%list. split; [eapply asks_app; eassumption|]. split; [now apply about_app|].
            rewrite SL. change (first :: second :: rest) with ([first] ++ (second :: rest))%list.
            eapply kept_pair; [apply kept_one, left_nil|exact K3|exact M3|lefts].
        - apply H in E2; [exact E2|]. eapply sub_in, S. }
      destruct K as (es & K1 & K2 & K3).
      apply bind_back in E. destruct E as (x & c3 & E3 & E). destruct x as [z|x]; [|destruct E as [E _]; discriminate E].
      injection E as <- <- <-. destruct W as [[-> ->]|(e & ->)].
      - injection E3 as <- <-. exists es. split; [exact K1|]. split; [exact K2|]. split; [reflexivity|]. rewrite S1, skipn_all, app_nil_r.
        eapply kept_same; [|exact K3]. specialize (SN eq_refl). lefts.
      - apply (traced_combine ts) in E3. destruct E3 as (es' & M1 & M2 & -> & M3). exists (es ++ [ECombine w e z])%list.
        split; [eapply asks_app; eassumption|]. split; [now apply about_app|]. split; [reflexivity|].
        rewrite S1. eapply kept_pair; [exact K3|apply (ST e q eq_refl)|exact M3|lefts].
    Qed.
    Lemma fold_right_kept lps : forall min st es0,
      (forall e p, st = Some (e, p) -> min = Some p /\ kept es0 (skipn p ts) e) -> (st = None -> no_left es0) ->
      traced ts (fold_right_assoc cfg fuel parse ts min st lps)
        (fun es '(min', st') => forall e p, st' = Some (e, p) -> min' = Some p /\ kept (es0 ++ es) (skipn p ts) e).
    Proof.
      induction lps as [|lp lps IH]; intros min st es0 ST SN; cbn [fold_right_assoc].
      - apply traced_ret. intros e p X. rewrite app_nil_r. apply ST, X.
      - destruct (option_eqb Nat.eqb (Some lp) min); [apply IH; assumption|].
        eapply traced_bind; [apply (handler_right st es0)|].
        + intros e p X. apply (ST e p X).
        + exact SN.
        + intros es [t k] [-> K]. eapply traced_weaken; [apply (IH (Some lp) (Some (t, lp)) (es0 ++ es)%list)|].
          * intros e p [= <- <-]. auto.
          * discriminate.
          * intros es' [min' st'] X. rewrite app_assoc. exact X.
    Qed.
    (** With left associativity, the list is used up to the last position only. *)
    Definition some_kept (st : option (tree * nat)) : Prop :=
      forall e p, st = Some (e, p) -> exists q, part_of q (firstn p ts) /\ built_from q e.
    Lemma handler_left st lp : some_kept st ->
      traced ts (try_fold_handler cfg fuel parse ts st lp ALeft) (fun _ x => some_kept (Some x)).
    Proof.
      intros ST c1 [t k] c' E. unfold try_fold_handler in E. apply bind_back in E. destruct E as (x & c2 & E1 & E).
      pose proof E1 as E1'. apply lift_back in E1'. destruct E1' as [-> E1']. clear E1.
      destruct x as [sl|x]; [|destruct E as [E _]; discriminate E].
      destruct sl as [|first rest] eqn:SL; [discriminate E|]. rewrite <- SL in *.
      assert (W : exists p, slice ts p lp = Ok sl /\ (st = None /\ p = 0 \/ exists e, st = Some (e, p))).
      { destruct st as [[e p]|]; cbn in E1'; [exists p; eauto|exists 0; auto]. }
      destruct W as (p & S & W). pose proof (slice_split _ _ _ _ S) as (L1 & L2 & _ & S2 & S3).
      apply bind_back in E. destruct E as (x & c2 & E2 & E). destruct x as [w|x]; [|destruct E as [E _]; discriminate E].
      assert (N : Nat.eqb lp (length sl - 1) = false).
      { apply Nat.eqb_neq. assert (length sl <> 0) by (rewrite SL; discriminate). lia. }
      rewrite N in E2. apply H in E2; [|eapply sub_in, S]. destruct E2 as (es & K1 & K2 & q & Q1 & Q2 & _).
      apply bind_back in E. destruct E as (x & c3 & E3 & E). destruct x as [z|x]; [|destruct E as [E _]; discriminate E].
      injection E as <- <- <-. destruct W as [[-> ->]|(e & ->)].
      - injection E3 as <- <-. exists es. split; [exact K1|]. split; [exact K2|]. intros e p [= <- <-]. exists q. rewrite S2. cbn. auto.
      - apply (traced_combine ts) in E3. destruct E3 as (es' & M1 & M2 & -> & M3). exists (es ++ [ECombine e w z])%list.
        split; [eapply asks_app; eassumption|]. split; [now apply about_app|]. intros e' p' [= <- <-].
        destruct (ST e p eq_refl) as (q' & Q1' & Q2'). exists (q' ++ q)%list. rewrite S2.
        split; [now apply part_app|]. eapply BuiltPair; [exact Q2'|exact Q2|exact M3].
    Qed.
    Lemma handler_position st lp c t k c' : try_fold_handler cfg fuel parse ts st lp ALeft c = Ok (Val (t, k), c') -> k = lp.
    Proof.
      unfold try_fold_handler. intros E. apply bind_back in E. destruct E as ([sl|x] & c2 & _ & E); [|destruct E as [E _]; discriminate E].
      destruct sl as [|first rest]; [discriminate E|].
      apply bind_back in E. destruct E as ([w|x] & c3 & _ & E); [|destruct E as [E _]; discriminate E].
      apply bind_back in E. destruct E as ([z|x] & c4 & _ & E); [|destruct E as [E _]; discriminate E].
      injection E as _ <- _. reflexivity.
    Qed.
    Lemma fold_left_kept lps : forall st, some_kept st ->
      traced ts (fold_left_assoc cfg fuel parse ts st lps) (fun _ st' => some_kept st' /\
        forall e p, st' = Some (e, p) -> In p lps \/ exists e', st = Some (e', p)).
    Proof.
      induction lps as [|lp lps IH]; intros st ST; cbn [fold_left_assoc]; [apply traced_ret; split; [exact ST|intros e p X; right; eauto]|].
      eapply (traced_bind ts _ _ (fun _ x => some_kept (Some x) /\ snd x = lp)).
      - intros c [t k] c' E. pose proof (handler_position _ _ _ _ _ _ E) as ->. apply handler_left in E; [|exact ST].
        destruct E as (es & E1 & E2 & E3). eauto 8.
      - intros es [t k] [K P]. eapply traced_weaken; [apply IH, K|]. cbn beta. intros _ st' [K1 K2]. split; [exact K1|].
        intros e p X. destruct (K2 e p X) as [I|(e' & [= _ <-])]; [left; now right|]. left. left. symmetry. exact P.
    Qed.
  End Fold.

  Lemma traced_sub {A} a b (m : CM A) P : (forall t, In t a -> In t b) -> traced a m P -> traced b m P.
  Proof.
    intros S H c x c' E. apply H in E. destruct E as (es & E1 & E2 & E3). exists es. split; [exact E1|]. split; [|exact E3].
    eapply about_sub; eassumption.
  Qed.
  Lemma heap_max_in l x : heap_max l = Some x -> In x l.
  Proof.
    destruct l as [|y l]; [discriminate|]. cbn [heap_max]. intros [= <-]. revert y. induction l as [|z l IH]; intros y; cbn; [auto|].
    destruct (IH (Nat.max y z)) as [E|I]; [|auto]. rewrite <- E. destruct (Nat.max_spec y z) as [[_ ->]|[_ ->]]; auto.
  Qed.
  Lemma remove_one_in n l x : In x (remove_one n l) -> In x l.
  Proof. induction l as [|y l IH]; cbn; [auto|]. destruct (Nat.eqb n y); [auto|]. intros [->|I]; auto. Qed.
  Lemma list_keeps n : forall ts, traced ts (ast_from_syntax_list cfg fuel n ts) (fun es u => kept es ts u).
  Proof.
    induction n as [|n IH]; intros ts; [intros c1 u c' E; discriminate E|].
    destruct ts as [|t1 [|t2 [|t3 ts]]]; cbn [ast_from_syntax_list].
    - intros c1 u c' E. discriminate E.
    - apply traced_ret, kept_one, left_nil.
    - apply traced_ret. change [t1; t2] with ([t1] ++ [t2])%list.
      eapply kept_pair; [apply kept_one, left_nil|apply kept_one, left_nil| |lefts]. unfold new_pair, branch. now destruct (pair_vars t1 t2).
    - set (l := t1 :: t2 :: t3 :: ts) in *.
      assert (HP : forall sub, (forall t, In t sub -> In t l) -> traced l (ast_from_syntax_list cfg fuel n sub) (fun es u => kept es sub u)).
      { intros sub S. eapply traced_sub; [exact S|apply IH]. }
      eapply traced_bind; [apply traced_info|]. intros es1 info (NA & SY & PB). apply left_silent in NA.
      destruct (ts_positions info) as [|p0 ps] eqn:PS; [intros c1 u c' E; discriminate E|]. rewrite <- PS in *.
      eapply traced_bind; [apply (traced_common l _ SY)|]. intros es2 a (LC & RC & _).
      destruct a as [[]|].
      + specialize (LC eq_refl ltac:(discriminate)).
        eapply (traced_bind l _ _ (fun _ o => forall p, In p o -> In p (ts_positions info))).
        { unfold heap_iter. destruct (heap_max (ts_positions info)) as [x|] eqn:HM; [|apply traced_ret; intros p []].
          intros c1 o c' E. pose proof E as E'. apply bind_back in E'. destruct E' as ([o1|y] & c2 & E1 & E'); [|destruct E' as [E' _]; discriminate E'].
          injection E' as <- <-. pose proof E1 as E2. apply (traced_shuffle l) in E2. destruct E2 as (es & A1 & A2 & _).
          exists es. split; [exact A1|]. split; [exact A2|]. apply (shuffle_run cfg F) in E1. destruct E1 as (o' & [= <-] & PM & _).
          intros p [<-|I]; [eapply heap_max_in, HM|]. apply (Permutation_in _ PM) in I. eapply remove_one_in, I. }
        intros es3 order OP. eapply traced_bind; [apply fold_left_kept; [exact HP|discriminate]|]. cbn beta.
        intros es4 [[t p]|] [K KP]; [|intros c1 u c' E; discriminate E].
        apply traced_ret. destruct (K t p eq_refl) as (q & Q1 & Q2). exists q. split; [eapply part_trans; [exact Q1|apply part_firstn]|].
        split; [exact Q2|]. split; [rewrite !left_app; tauto|]. intros ->. exfalso.
        destruct (KP t p eq_refl) as [I|(e' & I)]; [|discriminate I]. apply OP, PB in I.
        apply part_length in Q1. rewrite firstn_length in Q1. lia.
      + specialize (RC eq_refl). eapply traced_bind; [apply (fold_right_kept _ l HP _ _ _ []); [discriminate|intros _; apply left_nil]|]. intros es3 [min tail] K.
        destruct tail as [[t p]|]; [|intros c1 u c' E; discriminate E]. destruct (K t p eq_refl) as [-> K']. cbn [app] in K'.
        destruct (Nat.eqb_spec p 0) as [->|P0].
        * apply traced_ret. eapply kept_same; [|exact K']. lefts.
        * eapply traced_bind.
          { apply (HP (firstn p l)). intros z Z. eapply part_in; [apply part_firstn|exact Z]. }
          intros es4 head K2. eapply traced_weaken; [apply traced_combine|]. cbn beta. intros es5 u [-> E].
          rewrite <- (firstn_skipn p l). eapply kept_pair; [exact K2|exact K'|exact E|lefts].
      + intros c1 u c' E. discriminate E.
  Qed.

  (** ** Reading a command *)
  Lemma part_map {A B} (f : A -> B) a b : part_of a b -> part_of (map f a) (map f b).
  Proof. intros H. induction H; cbn; constructor; assumption. Qed.
  Lemma built_words ts u : built_from ts u -> tree_symbols u = flat_map tree_symbols ts.
  Proof.
    intros B. induction B as [t|a b l r u B1 IH1 B2 IH2 E]; cbn; [now rewrite app_nil_r|].
    rewrite flat_map_app, <- IH1, <- IH2. destruct u; [discriminate E|]. injection E as <- <-. reflexivity.
  Qed.
  Lemma part_words a b : part_of a b -> part_of (flat_map tree_symbols a) (flat_map tree_symbols b).
  Proof.
    intros H. induction H; cbn; [constructor| |].
    - apply part_app; [apply part_refl|assumption].
    - change (flat_map tree_symbols a) with ([] ++ flat_map tree_symbols a)%list. apply part_app; [apply part_nil|assumption].
  Qed.
  Lemma some_symbol t : lt 0 (length (tree_symbols t)).
  Proof. induction t as [|? ? l IH r _ ? ?]; cbn; [lia|]. rewrite app_length. lia. Qed.
  Lemma words_full a b : part_of a b -> flat_map tree_symbols a = flat_map tree_symbols b -> a = b.
  Proof.
    intros H. induction H as [|x a b H IH|x a b H IH]; cbn; intros E; [reflexivity|f_equal; apply IH; eapply app_inv_head, E|].
    apply (f_equal (@length _)) in E. rewrite app_length in E. apply part_words, part_length in H. pose proof (some_symbol x). lia.
  Qed.
  Lemma names_refl c : more_names c c.
  Proof. split; [reflexivity|]. exists []. rewrite app_nil_r. auto. Qed.
  Lemma names_trans c1 c2 c3 : more_names c1 c2 -> more_names c2 c3 -> more_names c1 c3.
  Proof.
    intros (H1 & l1 & H2 & H3) (K1 & l2 & K2 & K3). split; [congruence|]. exists (l1 ++ l2)%list.
    rewrite K2, H2, app_assoc, Forall_app. auto.
  Qed.
  Lemma names_unmoved c c' : unmoved c c' -> more_names c c'.
  Proof. intros [H1 H2]. split; [exact H1|]. exists []. unfold pending. rewrite H2, app_nil_r. auto. Qed.
  Lemma part_left {A} (a b : list A) : part_of a (a ++ b).
  Proof. rewrite <- (app_nil_r a) at 1. apply part_app; [apply part_refl|apply part_nil]. Qed.
  Lemma part_right {A} (a b : list A) : part_of b (a ++ b).
  Proof. change b with ([] ++ b)%list at 1. apply part_app; [apply part_nil|apply part_refl]. Qed.
  Lemma part_flat {A B} (f : A -> list B) l x : In x l -> part_of (f x) (flat_map f l).
  Proof.
    induction l as [|y l IH]; [contradiction|]. cbn. intros [->|I]; [apply part_left|].
    eapply part_trans; [apply IH, I|apply part_right].
  Qed.

  (** The words of a tree that was read: those of the text, unless some were dropped. *)
  Definition words_kept (es : list event) (ws u : list (text * leafkind)) : Prop := part_of u ws /\ (no_left es <-> u = ws).
  (** Each run of [m] asks some questions among the words [ws]; [P] holds of them and of its value. *)
  Definition reads {A} (ws : list (text * leafkind)) (m : CM A) (P : list event -> A -> Prop) : Prop :=
    forall c a c', m c = Ok (Val a, c') -> exists es, asks c es c' /\ among (map fst ws) es /\ more_names c c' /\ P es a.
  Lemma among_app ws a b : among ws a -> among ws b -> among ws (a ++ b).
  Proof. intros H K t x I. apply in_app_iff in I. destruct I as [I|I]; [eapply H, I|eapply K, I]. Qed.
  Lemma among_part a b es : part_of a b -> among a es -> among b es.
  Proof. intros P H t x I. eapply part_trans; [eapply H, I|exact P]. Qed.
  Lemma reads_ret {A} ws (a : A) (P : list event -> A -> Prop) : P [] a -> reads ws (cret a) P.
  Proof. intros H c b c' [= <- <-]. exists []. split; [constructor|]. split; [intros t x []|]. split; [apply names_refl|exact H]. Qed.
  Lemma reads_bind {A B} ws (m : CM A) (f : A -> CM B) P (Q : list event -> B -> Prop) :
    reads ws m P -> (forall es a, P es a -> reads ws (f a) (fun es' => Q (es ++ es')%list)) -> reads ws (cbind m f) Q.
  Proof.
    intros H K c b c' E. apply bind_back in E. destruct E as ([a|x] & c1 & E1 & E); [|destruct E as [E _]; discriminate E].
    apply H in E1. destruct E1 as (es & A1 & A2 & A3 & A4). apply (K es a A4) in E. destruct E as (es' & B1 & B2 & B3 & B4).
    exists (es ++ es')%list. split; [eapply asks_app; eassumption|]. split; [apply among_app; assumption|].
    split; [eapply names_trans; eassumption|exact B4].
  Qed.
  Lemma reads_weaken {A} ws (m : CM A) (P Q : list event -> A -> Prop) : reads ws m P -> (forall es a, P es a -> Q es a) -> reads ws m Q.
  Proof. intros H K c a c' E. apply H in E. destruct E as (es & E1 & E2 & E3 & E4). eauto 6. Qed.
  Lemma reads_part {A} a b (m : CM A) P : part_of a b -> reads a m P -> reads b m P.
  Proof.
    intros S H c x c' E. apply H in E. destruct E as (es & E1 & E2 & E3 & E4). exists es. split; [exact E1|]. split; [|auto].
    eapply among_part; [apply part_map, S|exact E2].
  Qed.
  Lemma words_parse ts : reads (flat_map tree_symbols ts) (parse_list cfg fuel ts)
    (fun es u => words_kept es (flat_map tree_symbols ts) (tree_symbols u)).
  Proof.
    intros c u c' E. apply list_keeps in E. destruct E as (es & E1 & E2 & k & P & B & K). exists es. split; [exact E1|]. split; [|split].
    - intros t a I. apply E2 in I. unfold tree_words. apply part_map, part_flat, I.
    - apply names_unmoved. eapply about_unmoved; eassumption.
    - rewrite (built_words _ _ B). split; [now apply part_words|]. rewrite K. split; [now intros ->|apply words_full, P].
  Qed.
  Lemma keeps_snap_bind {A B} (m : CM A) (f : A -> CM B) :
    (forall c r c', m c = Ok (r, c') -> c_snap c' = c_snap c) ->
    (forall a c r c', f a c = Ok (r, c') -> c_snap c' = c_snap c) ->
    forall c r c', cbind m f c = Ok (r, c') -> c_snap c' = c_snap c.
  Proof.
    intros H K c r c' E. apply bind_back in E. destruct E as (x & c1 & E1 & E2). apply H in E1. destruct x as [a|e].
    - apply K in E2. congruence.
    - destruct E2 as [_ ->]. exact E1.
  Qed.
  Lemma leaf_snap k s o c r c' : ast_from_syntax_leaf cfg fuel k s o c = Ok (r, c') -> c_snap c' = c_snap c.
  Proof.
    assert (U : forall d c r c', update d c = Ok (r, c') -> c_snap c' = c_snap c).
    { intros d x y z E. unfold update in E. apply obind_ok in E. destruct E as ([id d'] & _ & [= <- <-]). reflexivity. }
    assert (V : forall A (m : CM A), unmoving m -> forall c r c', m c = Ok (r, c') -> c_snap c' = c_snap c).
    { intros A m H x y z E. apply H in E. apply E. }
    assert (ND : unmoving need_delta).
    { intros x y z E. unfold need_delta in E. destruct (pinned x); injection E as <- <-; split; reflexivity. }
    revert c r c'. unfold ast_from_syntax_leaf. apply keeps_snap_bind; [|intros a; apply V, unmoving_ret].
    destruct o; [apply V, unmoving_ret|]. apply keeps_snap_bind; [apply V, ND|]. intros _.
    apply keeps_snap_bind; [apply V, unmoving_lift|]. intros [id|]; [apply V, unmoving_ret|].
    apply keeps_snap_bind; [apply V, unmoving_lift|]. intros l. unfold new_labelled_concept.
    apply keeps_snap_bind; [apply V, unmoving_lift|]. intros _. apply keeps_snap_bind; [apply U|]. intros a.
    apply keeps_snap_bind; [apply U|]. intros b. apply U.
  Qed.
  Lemma leaf_words ws k s o : reads ws (ast_from_syntax_leaf cfg fuel k s o) (fun es u => no_left es /\ tree_symbols u = [(s, k)]).
  Proof.
    intros c u c' E. exists [ELeaf k s o u]. split; [eapply AsksLeaf; [exact E|constructor]|].
    split; [intros t x [X|[]]; discriminate X|].
    split; [split; [eapply leaf_snap, E|]; apply (logs_leaf cfg fuel k s o) in E; apply E|].
    split; [intros t [X|[]]; discriminate X|].
    unfold ast_from_syntax_leaf in E. apply bind_back in E. destruct E as ([x|x] & c1 & _ & E).
    - injection E as <- <-. reflexivity.
    - destruct E as [E _]. discriminate E.
  Qed.
  Lemma pair_words ws l r : reads ws (ast_from_pair cfg fuel l r) (fun es u => no_left es /\ tree_symbols u = (tree_symbols l ++ tree_symbols r)%list).
  Proof.
    intros c u c' E. exists [EPair l r u]. split; [eapply AsksPair; [exact E|constructor]|].
    split; [intros t x [X|[]]; discriminate X|].
    unfold ast_from_pair in E. apply bind_back in E. destruct E as ([ty|x] & c1 & E1 & E); [|destruct E as [E _]; discriminate E].
    apply unmoving_type in E1. apply bind_back in E. destruct E as ([y|x] & c2 & E2 & E); [|destruct E as [E _]; discriminate E].
    assert (U : unmoved c1 c2).
    { destruct (_ && _)%bool; injection E2 as _ <-; split; reflexivity. }
    split.
    - apply names_unmoved. eapply unmoved_trans; [exact E1|]. eapply unmoved_trans; [exact U|]. eapply unmoving_combine, E.
    - split; [intros t [X|[]]; discriminate X|]. apply PC in E. destruct u; [discriminate E|]. injection E as <- <-. reflexivity.
  Qed.
  Definition leaf_symbol (x : leafkind * text * option cid) : text * leafkind := (snd (fst x), fst (fst x)).
  Definition leaf_texts (n : nested) : list (text * leafkind) := map leaf_symbol (leaves n).
  Definition nested_words (n : nested) : Prop :=
    reads (leaf_texts n) (ast_from_nested_syntax cfg fuel n) (fun es u => words_kept es (leaf_texts n) (tree_symbols u)).
  Lemma words_refl es ws : no_left es -> words_kept es ws ws.
  Proof. intros N. split; [apply part_refl|tauto]. Qed.
  Lemma words_app es e1 e2 ws1 u1 ws2 u2 : words_kept e1 ws1 u1 -> words_kept e2 ws2 u2 -> (no_left es <-> no_left e1 /\ no_left e2) ->
    words_kept es (ws1 ++ ws2) (u1 ++ u2).
  Proof. intros [P1 E1] [P2 E2] S. split; [now apply part_app|]. rewrite (part_both _ _ _ _ P1 P2). tauto. Qed.
  Lemma words_trans es e1 e2 a b u : words_kept e1 a b -> words_kept e2 b u -> (no_left es <-> no_left e1 /\ no_left e2) -> words_kept es a u.
  Proof.
    intros [P1 E1] [P2 E2] S. split; [eapply part_trans; eassumption|]. rewrite S, E1, E2. split; [intros [-> ->]; reflexivity|]. intros ->.
    pose proof (part_length _ _ P1). pose proof (part_length _ _ P2). assert (b = a) by (apply part_full; auto; lia). auto.
  Qed.
  Definition read_all (ns : list nested) : CM (list tree) :=
    (fix all (ns : list nested) : CM (list tree) :=
       match ns with
       | [] => cret []
       | n :: ns => cbind (ast_from_nested_syntax cfg fuel n) (fun t => cbind (all ns) (fun ts => cret (t :: ts)))
       end) ns.
  Lemma all_words ns : Forall nested_words ns ->
    reads (flat_map leaf_texts ns) (read_all ns) (fun es ts => words_kept es (flat_map leaf_texts ns) (flat_map tree_symbols ts)).
  Proof.
    intros H. induction H as [|n ns H K IH]; cbn.
    - apply reads_ret, words_refl, left_nil.
    - eapply reads_bind; [eapply reads_part; [apply part_left|exact H]|]. intros es t W1.
      eapply reads_bind; [eapply reads_part; [apply part_right|exact IH]|]. intros es' ts W2.
      apply reads_ret. cbn. eapply words_app; [exact W1|exact W2|lefts].
  Qed.
  Lemma parent_texts ns sh : leaf_texts (NParent ns sh) = flat_map leaf_texts ns.
  Proof.
    unfold leaf_texts. cbn [leaves]. induction ns as [|n ns IH]; [reflexivity|]. cbn. rewrite map_app, IH. reflexivity.
  Qed.
  Lemma nested_read : forall n, nested_words n.
  Proof.
    fix go 1. intros [k s o|ns sh].
    - cbn [ast_from_nested_syntax]. eapply reads_weaken; [apply leaf_words|]. cbn beta. intros es u [N ->]. apply words_refl, N.
    - assert (A : Forall nested_words ns).
      { induction ns as [|n ns IH]; constructor; [apply go|exact IH]. }
      clear go. unfold nested_words. cbn [ast_from_nested_syntax]. rewrite parent_texts.
      eapply reads_bind; [apply (all_words ns A)|]. cbn beta. intros es ts W.
      assert (P : reads (flat_map leaf_texts ns) (match ts with [l; r] => ast_from_pair cfg fuel l r | _ => parse_list cfg fuel ts end)
        (fun es u => words_kept es (flat_map tree_symbols ts) (tree_symbols u))).
      { destruct ts as [|l [|r [|x ts]]]; try (eapply reads_part; [exact (proj1 W)|apply words_parse]).
        eapply reads_weaken; [apply pair_words|]. cbn beta. intros es' u [N ->]. cbn. rewrite app_nil_r. apply words_refl, N. }
      eapply reads_weaken; [|].
      + destruct ts as [|l [|r [|x ts]]]; exact P.
      + cbn beta. intros es' u K. eapply words_trans; [exact W|exact K|lefts].
  Qed.
  Lemma lexed_texts ls : map fst (map leaf_symbol (sym_leaves (toks ls))) = symbol_texts (map (fun l => (cat_class (lx_cat l), lx_text l)) ls).
  Proof.
    unfold toks. induction ls as [|[t k] ls IH]; [reflexivity|]. cbn [flat_map map symbol_texts].
    rewrite sym_leaves_app, !map_app, IH. unfold symbol_texts. cbn [flat_map]. f_equal.
    destruct k as [kd| | |]; try reflexivity. cbn. unfold sym_leaf. destruct kd as [id ct|id| |]; try reflexivity. destruct ct; reflexivity.
  Qed.
  Lemma lexed_kinds kf s ls x k : (forall t kd, kf t = Ok kd -> (kd = KVariable <-> underscored t)) -> lex kf s = Ok ls ->
    In (x, k) (map leaf_symbol (sym_leaves (toks ls))) -> (k = LVariable <-> underscored x).
  Proof.
    intros H L I. apply in_map_iff in I. destruct I as (y & E & I). unfold sym_leaves in I. apply in_flat_map in I.
    destruct I as (tk & T & I). unfold toks in T. apply in_flat_map in T. destruct T as (l & L1 & T).
    unfold tok_of in T. destruct (lx_cat l) as [kd| | |] eqn:C; [|destruct T|destruct T as [<-|[]]; destruct I|destruct T as [<-|[]]; destruct I].
    destruct T as [<-|[]]. destruct I as [<-|[]]. pose proof (H _ _ (lex_categories_lemma _ _ _ _ _ L L1 C)) as [H1 H2].
    destruct kd as [id ct|id| |]; [destruct ct| | |]; injection E as <- <-; split; intros X; try discriminate X; auto;
      try (apply H2 in X; discriminate X).
  Qed.
  Lemma symbol_variable c t kd : kind_of_symbol cfg fuel c t = Ok kd -> (kd = KVariable <-> underscored t).
  Proof.
    rewrite <- underscored_spec. unfold kind_of_symbol. destruct (is_variable_symbol t); [intros [= <-]; tauto|].
    intros E. split; [|discriminate]. intros ->. apply obind_ok in E. destruct E as (o & _ & E).
    destruct o as [id|]; [|discriminate E]. apply obind_ok in E. destruct E as (m & _ & E). destruct (m_concrete m); discriminate E.
  Qed.
  Lemma expression_words s c u c' ts :
    ast_from_expression cfg fuel s c = Ok (Val u, c') -> tokenisation s ts ->
    more_names c c' /\ part_of (tree_words u) (symbol_texts ts) /\
    (exists es, asks c es c' /\ among (symbol_texts ts) es /\ (no_left es <-> tree_words u = symbol_texts ts)) /\
    forall x k, In (x, k) (tree_symbols u) -> (k = LVariable <-> underscored x).
  Proof.
    intros E T. unfold ast_from_expression, c_lex, c_nest in E.
    apply bind_back in E. destruct E as ([ls|x] & c1 & E1 & E); [|destruct E as [E _]; discriminate E].
    apply lift_back in E1. destruct E1 as [-> E1].
    apply bind_back in E. destruct E as ([n|x] & c1 & E2 & E); [|destruct E as [E _]; discriminate E].
    apply lift_back in E2. destruct E2 as [-> E2].
    assert (W : map fst (leaf_texts n) = symbol_texts ts).
    { unfold leaf_texts. rewrite (nest_leaves_lemma _ _ E2), lexed_texts. f_equal.
      eapply tokenisation_unique_lemma; [eapply lex_tokenisation_lemma, E1|exact T]. }
    assert (R : reads (leaf_texts n) (syntax_list_for_nested_syntax cfg fuel n) (fun es us => words_kept es (leaf_texts n) (flat_map tree_symbols us))).
    { destruct n as [k s' o|ns sh]; cbn [syntax_list_for_nested_syntax].
      - eapply reads_bind; [apply leaf_words|]. cbn beta. intros es t [N X]. apply reads_ret. cbn [flat_map]. rewrite X. apply words_refl. lefts.
      - rewrite parent_texts. apply (all_words ns). apply Forall_forall. intros m _. apply nested_read. }
    eapply (reads_bind _ _ _ _ (fun es u => words_kept es (leaf_texts n) (tree_symbols u)) R) in E.
    - destruct E as (es & A1 & A2 & A3 & P & Q). split; [exact A3|]. split; [|split].
      + rewrite <- W. apply part_map, P.
      + exists es. split; [exact A1|]. split; [rewrite <- W; exact A2|]. rewrite Q, <- W. unfold tree_words. split; [now intros ->|]. intros X. apply part_full; [exact P|].
        apply (f_equal (@length _)) in X. rewrite !map_length in X. exact X.
      + intros x k I. apply (part_in _ _ _ P) in I. unfold leaf_texts in I. rewrite (nest_leaves_lemma _ _ E2) in I.
        eapply lexed_kinds; [|exact E1|exact I]. apply symbol_variable.
    - cbn beta. intros es us K. eapply reads_weaken; [eapply reads_part; [exact (proj1 K)|apply words_parse]|]. cbn beta.
      intros es' v K'. eapply words_trans; [exact K|exact K'|lefts].
  Qed.
End Keeping.
