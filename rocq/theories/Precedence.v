(** How lists are grouped when the recorded precedences rank the symbols. *)
From Verif Require Import Start Snapshot Search Context LexerSpec LexerFacts NesterSpec NesterFacts CommandFacts CommandRun
  StoreFacts MapFacts AstFacts RangeFacts Quiet Grouping Keeping.
From Coq Require Import String List Bool NArith PeanoNat Lia Permutation.
Import ListNotations.
Local Open Scope zia_scope.

(** ** Specification *)
(** Some relation of the form [a precedes b], whatever it is said to reduce to, mentions [x]. *)
Definition mentioned (cfg : config) (c : ctx) (x : cid) : Prop :=
  exists p m y comp, concrete_concept_id cfg (c_snap c) (c_delta c) CPrecedes = Ok (Some p) /\
    read_concept cfg (c_snap c) (c_delta c) p = Ok m /\ In (y, comp) (m_iter_hand_of cfg m HLeft) /\
    (x = y \/ exists m' w, read_concept cfg (c_snap c) (c_delta c) comp = Ok m' /\ In (x, w) (m_iter_hand_of cfg m' HRight)).
(** The answers that were given agree with the ranks: [a precedes b] is true if [a] is ranked
    higher than [b] and false otherwise. *)
Definition agrees (rank : cid -> nat) (es : list event) : Prop :=
  forall a b r, In (EPrecedes a b r) es -> r = Some (if Nat.ltb (rank b) (rank a) then CTrue else CFalse).
(** The tokens of [ts] that bind weakest: those of the lowest rank among the ones that are
    mentioned; all tokens if none is mentioned. *)
Definition weakest (cfg : config) (c : ctx) (rank : cid -> nat) (ts : list tree) (t : tree) : Prop :=
  In t ts /\
  ((exists x, t_concept t = Some x /\ mentioned cfg c x /\
     forall s y, In s ts -> t_concept s = Some y -> mentioned cfg c y -> le (rank x) (rank y)) \/
   (forall s y, In s ts -> t_concept s = Some y -> ~ mentioned cfg c y)).
(** The list is cut before each of its [weak] elements, and nowhere else. *)
Definition cut (weak : tree -> Prop) (segs : list (list tree)) : Prop :=
  (forall seg, In seg segs -> exists t rest, seg = t :: rest /\ forall s, In s rest -> ~ weak s) /\
  (forall seg, In seg (tl segs) -> exists t rest, seg = t :: rest /\ weak t).
(** Grouping by rank: the list is cut before each of the tokens that bind weakest, the pieces
    are grouped in the same way, and the results are grouped to the right.  If there is only one
    such token and it comes first, it is put before the group formed by the others. *)
Inductive by_rank (cfg : config) (c : ctx) (rank : cid -> nat) : list tree -> tree -> Prop :=
| RankOne t : by_rank cfg c rank [t] t
| RankTwo l r u : t_exp u = Some (l, r) -> by_rank cfg c rank [l; r] u
| RankHead t ts v u : weakest cfg c rank (t :: ts) t -> (forall s, In s ts -> ~ weakest cfg c rank (t :: ts) s) ->
    by_rank cfg c rank ts v -> t_exp u = Some (t, v) -> by_rank cfg c rank (t :: ts) u
| RankCut segs us u : le 2 (length segs) -> le 3 (length (concat segs)) -> cut (weakest cfg c rank (concat segs)) segs ->
    all_by_rank cfg c rank segs us -> right_grouped us u -> by_rank cfg c rank (concat segs) u
with all_by_rank (cfg : config) (c : ctx) (rank : cid -> nat) : list (list tree) -> list tree -> Prop :=
| RankNone : all_by_rank cfg c rank [] []
| RankNext ts u tss us : by_rank cfg c rank ts u -> all_by_rank cfg c rank tss us -> all_by_rank cfg c rank (ts :: tss) (u :: us).

(** ** Proofs *)
Section Precedence.
  Variable cfg : config.
  Variable fuel : nat.
  Hypothesis F : fair cfg.
  Hypothesis PC : forall l r c u c', c_combine cfg fuel l r c = Ok (Val u, c') -> t_exp u = Some (l, r).
  Variable rank : cid -> nat.

  Lemma mentioned_unmoved c c' x : unmoved c c' -> mentioned cfg c x <-> mentioned cfg c' x.
  Proof. intros [H1 H2]. unfold mentioned. rewrite H1, H2. tauto. Qed.
  Lemma fold_related ids x : forall (l : list (cid * cid)) acc,
    In x (fold_left (fun acc '(y, _) => if smem cid_eqb y ids then sadd cid_eqb y acc else acc) l acc) <->
    In x acc \/ (In x ids /\ exists w, In (x, w) l).
  Proof.
    induction l as [|[y w] l IH]; intros acc; cbn [fold_left].
    - split; [auto|]. intros [H|[_ [w []]]]. exact H.
    - rewrite IH. destruct (smem cid_eqb y ids) eqn:M.
      + apply (smem_In cid_eqb cid_eqb_spec) in M. rewrite (sadd_In cid_eqb cid_eqb_spec). split.
        * intros [[->|H]|[H [v V]]]; [right|left; exact H|right]; (split; [assumption|]); eexists; [left; reflexivity|right; exact V].
        * intros [H|[H [v [V|V]]]]; [auto|injection V as <- <-; auto|]. right. split; [exact H|]. eauto.
      + apply (smem_false cid_eqb cid_eqb_spec) in M. split.
        * intros [H|[H [v V]]]; [auto|]. right. split; [exact H|]. exists v. right. exact V.
        * intros [H|[H [v [V|V]]]]; [auto|injection V as <- <-; contradiction|]. right. split; [exact H|]. eauto.
  Qed.
  Lemma related_run ids x : forall entries acc c l c',
    related_concepts cfg ids entries acc c = Ok (Val l, c') ->
    c' = c /\ (In x l <-> In x acc \/ (In x ids /\ exists y comp, In (y, comp) entries /\
      (x = y \/ exists m' w, read_concept cfg (c_snap c) (c_delta c) comp = Ok m' /\ In (x, w) (m_iter_hand_of cfg m' HRight)))).
  Proof.
    induction entries as [|[y comp] entries IH]; intros acc c l c' E; cbn [related_concepts] in E.
    - injection E as <- <-. split; [reflexivity|]. split; [auto|]. intros [H|[_ (y & comp & [] & _)]]. exact H.
    - apply bind_back in E. destruct E as (m & c1 & E1 & E). unfold c_read in E1. apply lift_back in E1. destruct E1 as [-> E1].
      destruct m as [m|e]; [|destruct E as [E _]; discriminate E]. apply IH in E. destruct E as [-> E]. split; [reflexivity|].
      rewrite E, fold_related. clear E IH.
      assert (A : In x (if smem cid_eqb y ids then sadd cid_eqb y acc else acc) <-> In x acc \/ (In x ids /\ x = y)).
      { destruct (smem cid_eqb y ids) eqn:M.
        - apply (smem_In cid_eqb cid_eqb_spec) in M. rewrite (sadd_In cid_eqb cid_eqb_spec). split; [|tauto].
          intros [->|H]; auto.
        - apply (smem_false cid_eqb cid_eqb_spec) in M. split; [auto|]. intros [H|[H ->]]; [exact H|contradiction]. }
      rewrite A. split.
      + intros [[[H|[H ->]]|[H [w W]]]|[H (y' & comp' & I & K)]]; [auto|right..]; (split; [exact H|]).
        * exists y, comp. split; [left; reflexivity|auto].
        * exists y, comp. split; [left; reflexivity|]. right. eauto.
        * exists y', comp'. split; [right; exact I|exact K].
      + intros [H|[H (y' & comp' & [I|I] & K)]]; [auto| |].
        * injection I as <- <-. destruct K as [->|(m' & w & R & K)]; [auto|]. rewrite E1 in R. injection R as <-.
          left. right. split; [exact H|]. eauto.
        * right. split; [exact H|]. eauto 6.
  Qed.

  (** *** The concepts that bind weakest *)
  Notation traced := (traced cfg fuel).
  Lemma agrees_app a b : agrees rank (a ++ b) <-> agrees rank a /\ agrees rank b.
  Proof.
    split.
    - intros H. split; intros x y r I; apply H, in_app_iff; auto.
    - intros [H K] x y r I. apply in_app_iff in I. destruct I; [apply H|apply K]; assumption.
  Qed.
  Lemma agrees_one a b r : agrees rank [EPrecedes a b r] -> r = Some (if Nat.ltb (rank b) (rank a) then CTrue else CFalse).
  Proof. intros H. apply H. now left. Qed.
  Definition placed (x : cid) (all low : list cid) (r : option (list cid)) : Prop :=
    forall l ls, low = l :: ls -> r = Some (if Nat.ltb (rank l) (rank x) then all
      else if Nat.ltb (rank x) (rank l) then [x] else sadd cid_eqb x all).
  Definition within (ts : list tree) (r : option (list cid)) : Prop :=
    forall l, r = Some l -> forall y, In y l -> In y (concept_ids ts).
  Lemma place_run ts x all : In x (concept_ids ts) -> (forall y, In y all -> In y (concept_ids ts)) -> forall low,
    (forall y, In y low -> In y (concept_ids ts)) ->
    traced ts (place_concept cfg fuel x all low) (fun es r => within ts r /\ (agrees rank es -> placed x all low r)).
  Proof.
    intros X A low L. destruct low as [|l low].
    - apply traced_ret. split; [discriminate|]. intros _ l ls E. discriminate E.
    - cbn [place_concept].
      assert (LL := L l (or_introl eq_refl)).
      assert (GO := traced_place cfg fuel ts x all X A low (fun y I => L y (or_intror I))).
      assert (S1 : within ts (Some [x])) by (intros l0 [= <-] y [<-|[]]; exact X).
      assert (S2 : within ts (Some all)) by (intros l0 [= <-]; exact A).
      assert (S3 : within ts (Some (sadd cid_eqb x all))).
      { intros l0 [= <-] y I. apply (sadd_In cid_eqb cid_eqb_spec) in I. destruct I as [->|I]; auto. }
      assert (PN : forall site Q, traced ts (clift (fun _ => Panic site) : CM (option (list cid))) Q) by (intros site Q c a c' E; discriminate E).
      assert (SK : forall (Q : list event -> Prop), (forall es', Q es' -> False) ->
        traced ts (place_concept cfg fuel x all low) (fun es' r => within ts r /\ (Q es' -> placed x all (l :: low) r))).
      { intros Q HQ. eapply traced_weaken; [exact GO|]. intros es' r [_ H]. split; [exact H|]. intros B. destruct (HQ es' B). }
      eapply traced_bind; [apply traced_precedes; assumption|]. intros es r ->.
      destruct r as [[]|]; try apply PN.
      1: { apply traced_ret. split; [exact S2|]. intros G l0 ls [= <- <-]. rewrite app_nil_r in G. apply agrees_one in G.
           destruct (Nat.ltb (rank l) (rank x)); [reflexivity|discriminate G]. }
      all: eapply traced_bind; [apply traced_precedes; assumption|]; intros es r ->; destruct r as [[]|]; try apply PN.
      all: try (apply traced_ret; split; [assumption|]; intros G l0 ls [= <- <-]; rewrite app_nil_r in G; apply agrees_app in G;
           destruct G as [G1 G2]; apply agrees_one in G1; apply agrees_one in G2;
           destruct (Nat.ltb (rank l) (rank x)); try discriminate G1; destruct (Nat.ltb (rank x) (rank l)); try discriminate G2; reflexivity).
      all: apply SK; intros es' G; apply agrees_app in G; destruct G as [G1 G]; apply agrees_app in G; destruct G as [G2 _];
        apply agrees_one in G1; apply agrees_one in G2;
        destruct (Nat.ltb (rank l) (rank x)); try discriminate G1; destruct (Nat.ltb (rank x) (rank l)); discriminate G2.
  Qed.
  (** [lowest] are those of [seen] that have the lowest rank. *)
  Definition lowest_of (seen lowest : list cid) : Prop :=
    forall x, In x lowest <-> In x seen /\ forall y, In y seen -> le (rank x) (rank y).
  Lemma place_lowest x seen low l' pl : Permutation l' low -> lowest_of seen low -> (low = [] -> seen = []) ->
    placed x low l' pl -> (l' = [] -> pl = None) ->
    let low2 := match pl with Some l => l | None => sadd cid_eqb x low end in lowest_of (seen ++ [x]) low2 /\ low2 <> [].
  Proof.
    intros PM H N PL P0. destruct l' as [|l ls].
    - apply Permutation_nil in PM. subst low. rewrite (P0 eq_refl), (N eq_refl). cbn. split; [|discriminate]. intros y. cbn. split.
      + intros [->|[]]. split; [auto|]. intros z [->|[]]. lia.
      + intros [[->|[]] _]. auto.
    - assert (LL : In l low) by (eapply Permutation_in; [exact PM|left; reflexivity]).
      apply H in LL. destruct LL as [L1 L2]. rewrite (PL l ls eq_refl).
      destruct (Nat.ltb_spec (rank l) (rank x)) as [LT|GE]; [|destruct (Nat.ltb_spec (rank x) (rank l)) as [LT|GE2]]; cbn zeta.
      + split; [|intros E0; rewrite E0 in H; destruct (proj2 (H l)); auto]. intros y. rewrite (H y), in_app_iff. split.
        * intros [Y1 Y2]. split; [auto|]. intros z Z. apply in_app_iff in Z. destruct Z as [Z|[->|[]]]; [auto|].
          specialize (Y2 l L1). lia.
        * intros [[Y|[<-|[]]] Y2]; [split; [exact Y|]; intros z Z; apply Y2; rewrite in_app_iff; auto|].
          specialize (Y2 l). rewrite in_app_iff in Y2. specialize (Y2 (or_introl L1)). lia.
      + split; [|discriminate]. intros y. cbn. rewrite in_app_iff. split.
        * intros [<-|[]]. split; [cbn; auto|]. intros z Z. apply in_app_iff in Z. destruct Z as [Z|[->|[]]]; [|lia].
          specialize (L2 z Z). lia.
        * intros [[Y|[<-|[]]] Y2]; [|auto]. specialize (Y2 x). rewrite in_app_iff in Y2. cbn in Y2.
          specialize (L2 y Y). assert (le (rank y) (rank x)) by auto. lia.
      + assert (EQ : rank x = rank l) by lia. split.
        * intros y. rewrite (sadd_In cid_eqb cid_eqb_spec), (H y), in_app_iff. cbn. split.
          -- intros [->|[Y1 Y2]].
             ++ split; [auto|]. intros z Z. apply in_app_iff in Z. destruct Z as [Z|[->|[]]]; [rewrite EQ; auto|lia].
             ++ split; [auto|]. intros z Z. apply in_app_iff in Z. destruct Z as [Z|[->|[]]]; [auto|rewrite EQ; auto].
          -- intros [[Y|[<-|[]]] Y2]; [|auto]. right. split; [exact Y|]. intros z Z. apply Y2. rewrite in_app_iff. auto.
        * intros E0. assert (I : In x (sadd cid_eqb x low)) by (apply (sadd_In cid_eqb cid_eqb_spec); auto). rewrite E0 in I. destruct I.
  Qed.
  Lemma lowest_run ts cs : forall low, (forall y, In y cs -> In y (concept_ids ts)) -> (forall y, In y low -> In y (concept_ids ts)) ->
    traced ts (lowest_concepts cfg fuel cs low) (fun es low' => agrees rank es -> forall seen, lowest_of seen low -> (low = [] -> seen = []) ->
      lowest_of (seen ++ cs) low' /\ (low' = [] -> seen ++ cs = [])%list).
  Proof.
    induction cs as [|x cs IH]; intros low C L; cbn [lowest_concepts].
    - apply traced_ret. intros _ seen H N. rewrite app_nil_r. auto.
    - intros c a c' E. apply bind_back in E. destruct E as ([o|e] & c1 & E1 & E); [|destruct E as [E _]; discriminate E].
      pose proof E1 as E0. apply (shuffle_run cfg F) in E1. destruct E1 as (l' & [= <-] & PM & _ & _).
      apply (traced_shuffle cfg fuel ts) in E0. destruct E0 as (es1 & A1 & A2 & ->).
      apply bind_back in E. destruct E as ([r|e] & c2 & E2 & E); [|destruct E as [E _]; discriminate E].
      assert (P0 : o = [] -> r = None) by (intros ->; injection E2 as <- _; reflexivity).
      apply (place_run ts) in E2; [|apply C; now left|exact L|intros y I; apply L; eapply Permutation_in; eassumption].
      destruct E2 as (es2 & B1 & B2 & B3 & B4). apply IH in E; [|intros y I; apply C; now right|].
      + destruct E as (es3 & C1 & C2 & C3). exists ([EOrder] ++ es2 ++ es3)%list.
        split; [eapply asks_app; [exact A1|]; eapply asks_app; eassumption|]. split; [repeat apply about_app; assumption|].
        intros G seen H N. apply agrees_app in G. destruct G as [_ G]. apply agrees_app in G. destruct G as [G2 G3].
        destruct (place_lowest x seen low o r PM H N (B4 G2) P0) as [Q1 Q2].
        destruct (C3 G3 (seen ++ [x])%list Q1) as [R1 R2]; [intros Z; contradiction|]. rewrite <- app_assoc in R1, R2. auto.
      + destruct r as [l|]; [exact (B3 l eq_refl)|]. intros y I. apply (sadd_In cid_eqb cid_eqb_spec) in I. destruct I as [->|I]; [apply C; now left|auto].
  Qed.

  Lemma nth_in (ts : list tree) t : In t ts <-> exists i, nth_error ts i = Some t.
  Proof. split; [apply In_nth_error|]. intros [i H]. eapply nth_error_In, H. Qed.
  Lemma info_run c ts c1 info c2 : unmoved c c1 ->
    lowest_precedence_info cfg fuel ts c1 = Ok (Val info, c2) ->
    exists es, asks cfg fuel c1 es c2 /\ about ts es /\ (forall t, In t (ts_syntax info) -> In t ts) /\
      (agrees rank es -> forall i, In i (ts_positions info) <-> exists t, nth_error ts i = Some t /\ weakest cfg c rank ts t).
  Proof.
    intros U E.
    unfold lowest_precedence_info in E.
    apply bind_back in E. destruct E as (p & c3 & E1 & E). unfold c_concrete_id in E1. apply lift_back in E1. destruct E1 as [-> E1].
    destruct p as [p|e]; [|destruct E as [E _]; discriminate E].
    apply bind_back in E. destruct E as (p' & c3 & E2 & E). destruct p as [p|]; [|discriminate E2]. injection E2 as <- <-.
    apply bind_back in E. destruct E as (m & c3 & E2 & E). unfold c_read in E2. apply lift_back in E2. destruct E2 as [-> E2].
    destruct m as [m|e]; [|destruct E as [E _]; discriminate E].
    apply bind_back in E. destruct E as (rel & c3 & E3 & E). destruct rel as [rel|e]; [|destruct E as [E _]; discriminate E].
    assert (REL : c3 = c1 /\ forall x, In x rel <-> In x (concept_ids ts) /\ mentioned cfg c x).
    { split; [apply (related_run _ p) in E3; apply E3|]. intros x. apply (related_run _ x) in E3. destruct E3 as [_ E3]. rewrite E3.
      rewrite (mentioned_unmoved _ _ x U). split.
      - intros [[]|[I (y & comp & Y & K)]]. split; [exact I|]. exists p, m, y, comp. auto.
      - intros [I (q & m1 & y & comp & Q1 & Q2 & Q3)]. right. split; [exact I|]. rewrite E1 in Q1. injection Q1 as <-.
        rewrite E2 in Q2. injection Q2 as <-. exists y, comp. exact Q3. }
    destruct REL as [-> REL]. clear E3.
    apply bind_back in E. destruct E as (o & c3 & E3 & E). pose proof E3 as T1.
    apply (shuffle_run cfg F) in E3. destruct E3 as (order & -> & PM & S1 & S2).
    apply (traced_shuffle cfg fuel ts) in T1. destruct T1 as (es1 & A1 & A2 & ->).
    apply bind_back in E. destruct E as ([low'|e] & c4 & E4 & E); [|destruct E as [E _]; discriminate E].
    apply (lowest_run ts) in E4; [|intros y I; apply (Permutation_in _ PM) in I; apply REL in I; apply I|intros y []].
    destruct E4 as (es2 & B1 & B2 & B3).
    assert (LO : agrees rank es2 -> lowest_of order low' /\ (low' = [] -> order = [])).
    { intros G. apply (B3 G []); [|reflexivity]. intros x. split; [intros []|intros [[] _]]. }
    clear B3.
    assert (LO' : agrees rank es2 -> (forall x, In x low' <-> In x rel /\ forall y, In y rel -> le (rank x) (rank y)) /\ (low' = [] -> rel = [])).
    { intros G. destruct (LO G) as [L NE]. split.
      - intros x. rewrite (L x). split; intros [H K]; (split; [|intros y Y; apply K]); eapply Permutation_in; try eassumption;
        now apply Permutation_sym.
      - intros Z. rewrite (NE Z) in PM. now apply Permutation_nil in PM. }
    clear LO.
    destruct low' as [|l0 low0] eqn:LW.
    - apply bind_back in E. destruct E as (ps & c5 & E5 & E). pose proof E5 as T3. destruct ps as [ps|e]; [|destruct E as [E _]; discriminate E].
      apply (traced_positions cfg fuel F ts) in T3. destruct T3 as (es3 & C1 & C2 & _).
      apply (positions_run cfg F) in E5. destruct E5 as (ps' & [= <-] & PS & _).
      injection E as <- <-. exists ([EOrder] ++ es2 ++ es3)%list.
      split; [eapply asks_app; [exact A1|]; eapply asks_app; eassumption|]. split; [repeat apply about_app; assumption|].
      split; [cbn [ts_syntax]; intros t I; try (rewrite in_app_iff in I; destruct I as [I|I]); eapply syntax_in, I|].
      intros G. apply agrees_app in G. destruct G as [_ G]. apply agrees_app in G. destruct G as [G _].
      destruct (LO' G) as [_ RN]. specialize (RN eq_refl).
      assert (NM : forall s y, In s ts -> t_concept s = Some y -> ~ mentioned cfg c y).
      { intros s y S Y M. assert (In y rel) as I by (apply REL; split; [apply concept_ids_in; eauto|exact M]). rewrite RN in I. destruct I. }
      cbn [ts_positions]. intros i. rewrite in_app_iff, indices_without_in, PS. split.
      + intros [(t & T & _)|(x & _ & X)].
        * exists t. split; [exact T|]. split; [eapply nth_error_In, T|]. right. exact NM.
        * apply indices_of_in in X. destruct X as (t & T & _). exists t. split; [exact T|]. split; [eapply nth_error_In, T|]. right. exact NM.
      + intros (t & T & _). destruct (t_concept t) as [x|] eqn:X; [|left; eauto]. right. exists x.
        rewrite filter_In, indices_of_in. split; [|eauto]. split; [apply concept_ids_in; exists t; split; [eapply nth_error_In, T|exact X]|].
        rewrite RN. reflexivity.
    - apply bind_back in E. destruct E as (o2 & c5 & E5 & E). pose proof E5 as T2.
      apply (shuffle_run cfg F) in E5. destruct E5 as (order2 & -> & PM2 & S3 & S4).
      apply (traced_shuffle cfg fuel ts) in T2. destruct T2 as (es4 & D1 & D2 & ->).
      apply bind_back in E. destruct E as (ps & c6 & E6 & E). pose proof E6 as T3. destruct ps as [ps|e]; [|destruct E as [E _]; discriminate E].
      apply (traced_positions cfg fuel F ts) in T3. destruct T3 as (es3 & C1 & C2 & _).
      apply (positions_run cfg F) in E6. destruct E6 as (ps' & [= <-] & PS & _).
      injection E as <- <-. exists ([EOrder] ++ es2 ++ [EOrder] ++ es3)%list.
      split; [eapply asks_app; [exact A1|]; eapply asks_app; [exact B1|]; eapply asks_app; eassumption|].
      split; [repeat apply about_app; assumption|].
      split; [cbn [ts_syntax]; intros t I; eapply syntax_in, I|].
      intros G. apply agrees_app in G. destruct G as [_ G]. apply agrees_app in G. destruct G as [G _].
      destruct (LO' G) as [LO _]. clear LO'. rename LO into LO'.
      cbn [ts_positions]. intros i. rewrite PS. rewrite <- LW in *. split.
      + intros (x & X & I). apply indices_of_in in I. destruct I as (t & T & TX). exists t. split; [exact T|].
        split; [eapply nth_error_In, T|]. left. exists x. split; [exact TX|].
        apply (Permutation_in _ PM2) in X. apply LO' in X. destruct X as [X1 X2]. apply REL in X1. split; [apply X1|].
        intros s y S Y M. apply X2, REL. split; [apply concept_ids_in; eauto|exact M].
      + intros (t & T & _ & W). destruct W as [(x & TX & M & L)|NM].
        * exists x. split; [|apply indices_of_in; eauto]. eapply Permutation_in; [apply Permutation_sym, PM2|]. apply LO'.
          split; [apply REL; split; [apply concept_ids_in; exists t; split; [eapply nth_error_In, T|exact TX]|exact M]|].
          intros y Y. apply REL in Y. destruct Y as [Y MY]. apply concept_ids_in in Y. destruct Y as (s & S & Y). eapply L; eassumption.
        * assert (I : In l0 low') by (rewrite LW; left; reflexivity). apply LO' in I. destruct I as [I _]. apply REL in I.
          destruct I as [I M]. apply concept_ids_in in I. destruct I as (s & S & Y). destruct (NM s l0 S Y M).
  Qed.

  (** *** Cutting and grouping *)
  Lemma nth_skip {A} a (l : list A) : forall i, nth_error (skipn a l) i = nth_error l (a + i).
  Proof. revert l. induction a as [|a IH]; intros l i; [reflexivity|]. destruct l as [|x l]; [now destruct i|]. apply IH. Qed.
  Lemma slice_nth {A} (l : list A) a b sl i x : slice l a b = Ok sl -> nth_error sl i = Some x -> nth_error l (a + i) = Some x /\ lt (a + i) b.
  Proof.
    intros S N. apply slice_split in S. destruct S as (L1 & L2 & S & _ & L3).
    assert (lt i (length sl)) by (apply nth_error_Some; congruence). split; [|lia].
    rewrite <- nth_skip, S, nth_error_app1 by assumption. exact N.
  Qed.
  Lemma weak_sub c ts sub t : (forall s, In s sub -> In s ts) -> In t sub -> weakest cfg c rank ts t -> weakest cfg c rank sub t.
  Proof.
    intros S I [_ [(x & X & M & L)|N]]; (split; [exact I|]).
    - left. exists x. split; [exact X|]. split; [exact M|]. intros s y Y. apply L, S, Y.
    - right. intros s y Y. apply N, S, Y.
  Qed.
  Lemma weak_super c ts sub t s : (forall s, In s sub -> In s ts) -> In t sub -> weakest cfg c rank ts t ->
    weakest cfg c rank sub s -> weakest cfg c rank ts s.
  Proof.
    intros S I [_ [(x & X & M & L)|N]] [J K]; (split; [apply S, J|]).
    - destruct K as [(y & Y & MY & LY)|K]; [|destruct (K t x I X M)]. left. exists y. split; [exact Y|]. split; [exact MY|].
      intros r z R Z MZ. specialize (L r z R Z MZ). specialize (LY t x I X M). lia.
    - right. exact N.
  Qed.

  Definition good (es : list event) : Prop := agrees rank es /\ no_left es.
  Lemma good_app a b : good (a ++ b) -> good a /\ good b.
  Proof.
    intros [H K]. apply agrees_app in H. destruct H as [H1 H2]. split; (split; [assumption|]).
    - apply left_app in K. apply K.
    - apply left_app in K. apply K.
  Qed.
  Section Fold.
    Variable parse : list tree -> CM tree.
    Variable ts : list tree.
    Variable c : ctx.
    Hypothesis H : forall sub c1 w c', unmoved c c1 -> (forall t, In t sub -> In t ts) -> parse sub c1 = Ok (Val w, c') ->
      exists es, asks cfg fuel c1 es c' /\ about ts es /\ (good es -> by_rank cfg c rank sub w).
    Let weak := weakest cfg c rank ts.
    Definition weak_at (i : nat) : Prop := exists t, nth_error ts i = Some t /\ weak t.
    (** [e] is the group formed by the tokens from [p] on. *)
    Definition tailed (p : nat) (e : tree) : Prop :=
      exists segs us, concat segs = skipn p ts /\ segs <> [] /\
        (forall seg, In seg segs -> exists t rest, seg = t :: rest /\ weak t /\ forall s, In s rest -> ~ weak s) /\
        all_by_rank cfg c rank segs us /\ right_grouped us e.
    Lemma handler_ranked st lp c1 t k c' : unmoved c c1 ->
      try_fold_handler cfg fuel parse ts st lp ARight c1 = Ok (Val (t, k), c') ->
      k = lp /\ exists es, asks cfg fuel c1 es c' /\ about ts es /\ (good es -> weak_at lp ->
        (forall e p, st = Some (e, p) -> tailed p e /\ forall j, lt lp j -> lt j p -> ~ weak_at j) ->
        (st = None -> forall j, lt lp j -> ~ weak_at j) -> tailed lp t).
    Proof.
      intros U E. unfold try_fold_handler in E. apply bind_back in E. destruct E as (x & c2 & E1 & E).
      pose proof E1 as E1'. apply lift_back in E1'. destruct E1' as [-> E1']. clear E1.
      destruct x as [sl|x]; [|destruct E as [E _]; discriminate E].
      destruct sl as [|first rest] eqn:SL; [discriminate E|]. rewrite <- SL in *.
      assert (W' : exists q, slice ts lp q = Ok sl /\ (st = None /\ q = length ts \/ exists e, st = Some (e, q))).
      { destruct st as [[e q]|]; cbn in E1'; [exists q; eauto|exists (length ts); auto]. }
      destruct W' as (q & S & W'). pose proof (slice_split _ _ _ _ S) as (L1 & L2 & S1 & _ & S3).
      assert (SUB : forall s, In s sl -> In s ts).
      { intros s I. apply nth_in in I. destruct I as [i I]. apply (slice_nth _ _ _ _ _ _ S) in I. eapply nth_error_In, I. }
      assert (HD : weak_at lp -> weak first).
      { intros (op & N & W). assert (X : nth_error sl 0 = Some first) by (rewrite SL; reflexivity).
        apply (slice_nth _ _ _ _ _ _ S) in X. rewrite Nat.add_0_r in X. destruct X as [X _]. congruence. }
      assert (TL : (forall j, lt lp j -> lt j q -> ~ weak_at j) -> forall s, In s rest -> ~ weak s).
      { intros B s I K. apply nth_in in I. destruct I as [i I]. assert (X : nth_error sl (Datatypes.S i) = Some s) by (rewrite SL; exact I).
        apply (slice_nth _ _ _ _ _ _ S) in X. destruct X as [X1 X2]. apply (B (lp + Datatypes.S i)); [lia|exact X2|]. exists s. auto. }
      apply bind_back in E. destruct E as (x & c2 & E2 & E). destruct x as [w|x]; [|destruct E as [E _]; discriminate E].
      assert (K : exists es, asks cfg fuel c1 es c2 /\ about ts es /\
        (good es -> weak first -> (forall s, In s rest -> ~ weak s) -> by_rank cfg c rank sl w)).
      { destruct (Nat.eqb_spec lp 0) as [->|N].
        - rewrite SL in E2. cbn [nth] in E2. destruct rest as [|second rest].
          + cbn in E2. injection E2 as <- <-. exists []. split; [constructor|]. split; [apply about_nil|]. intros _ _ _. rewrite SL. constructor.
          + replace (Nat.eqb (length (first :: second :: rest)) 1) with false in E2 by reflexivity.
            apply bind_back in E2. destruct E2 as (r & c3 & E2 & E3). destruct r as [r|r]; [|destruct E3 as [E3 _]; discriminate E3].
            apply (traced_combine cfg fuel PC ts) in E3. destruct E3 as (es' & M1 & M2 & -> & M3).
            destruct rest as [|third rest].
            * cbn in E2. injection E2 as <- <-. exists [ECombine first second w]. split; [exact M1|]. split; [exact M2|].
              intros _ _ _. rewrite SL. apply RankTwo. exact M3.
            * replace (Nat.ltb (length (first :: second :: third :: rest)) 3) with false in E2 by reflexivity.
              apply H in E2; [|exact U|intros z Z; apply SUB; rewrite SL; now right]. destruct E2 as (es & K1 & K2 & K3).
              exists (es ++ [ECombine first r w])%list. split; [eapply asks_app; eassumption|]. split; [now apply about_app|].
              intros G HW TW. apply good_app in G. destruct G as [G _]. rewrite SL.
              assert (I1 : In first sl) by (rewrite SL; now left).
              eapply RankHead; [| |exact (K3 G)|exact M3]; rewrite <- SL.
              -- eapply weak_sub; [exact SUB|exact I1|exact HW].
              -- intros s I K. apply (TW s I). eapply weak_super; [exact SUB|exact I1|exact HW|exact K].
        - apply H in E2; [|exact U|exact SUB]. destruct E2 as (es & K1 & K2 & K3). exists es. auto. }
      destruct K as (es & K1 & K2 & K3).
      apply bind_back in E. destruct E as (x & c3 & E3 & E). destruct x as [z|x]; [|destruct E as [E _]; discriminate E].
      injection E as <- <- <-. split; [reflexivity|]. destruct W' as [[-> ->]|(e & ->)].
      - injection E3 as <- <-. exists es. split; [exact K1|]. split; [exact K2|]. intros G W ST SN.
        assert (TW : forall s, In s rest -> ~ weak s) by (apply TL; intros j J _; apply SN; auto). specialize (HD W).
        exists [sl], [w].
        split; [cbn; rewrite S1, skipn_all; reflexivity|]. split; [discriminate|]. split; [|split; [|constructor]].
        + intros seg [<-|[]]. eauto.
        + constructor; [auto|constructor].
      - apply (traced_combine cfg fuel PC ts) in E3. destruct E3 as (es' & M1 & M2 & -> & M3).
        exists (es ++ [ECombine w e z])%list. split; [eapply asks_app; eassumption|]. split; [now apply about_app|].
        intros G W ST SN. apply good_app in G. destruct G as [G _]. destruct (ST e q eq_refl) as [(segs & us & T1 & T2 & T3 & T4 & T5) B].
        specialize (TL B). specialize (HD W).
        exists (sl :: segs), (w :: us). split; [cbn; rewrite S1, T1; reflexivity|]. split; [discriminate|]. split; [|split].
        + intros seg [<-|I]; [eauto|auto].
        + constructor; auto.
        + eapply GroupMore; [exact T5|exact M3].
    Qed.
    Lemma fold_ranked lps : forall min st c1 min' st' c', unmoved c c1 ->
      fold_right_assoc cfg fuel parse ts min st lps c1 = Ok (Val (min', st'), c') ->
      exists es, asks cfg fuel c1 es c' /\ about ts es /\ (good es -> desc lps -> (forall i, In i lps -> weak_at i) ->
      (st = None -> min = None /\ lps <> [] /\ forall j, weak_at j -> In j lps) ->
      (forall e p, st = Some (e, p) -> min = Some p /\ tailed p e /\ le p (length ts) /\ (forall i, In i lps -> le i p) /\
         forall j, weak_at j -> lt j p -> In j lps) ->
      exists e p, st' = Some (e, p) /\ min' = Some p /\ tailed p e /\ forall j, weak_at j -> le p j).
    Proof.
      induction lps as [|lp lps IH]; intros min st c1 min' st' c' U E; cbn [fold_right_assoc] in E.
      - injection E as <- <- <-. exists []. split; [constructor|]. split; [apply about_nil|]. intros _ _ A SN ST.
        destruct st as [[e p]|]; [|destruct (SN eq_refl) as (_ & N & _); congruence].
        destruct (ST e p eq_refl) as (-> & T & _ & _ & N). exists e, p. split; [reflexivity|]. split; [reflexivity|].
        split; [exact T|]. intros j J. destruct (Nat.le_gt_cases p j); [assumption|]. destruct (N j J); assumption.
      - destruct (option_eqb Nat.eqb (Some lp) min) eqn:Q.
        + apply IH in E; [|exact U]. destruct E as (es & K1 & K2 & K3). exists es. split; [exact K1|]. split; [exact K2|].
          intros G [D1 D2] A SN ST. destruct st as [[e p]|]; [|destruct (SN eq_refl) as (-> & _); discriminate Q].
          destruct (ST e p eq_refl) as (-> & T & L & M & N). cbn in Q. apply Nat.eqb_eq in Q. subst lp.
          refine (K3 G D2 _ _ _); [intros i I; apply A; now right|discriminate|].
          intros e' p' [= <- <-]. split; [reflexivity|]. split; [exact T|]. split; [exact L|]. split; [exact D1|].
          intros j J K. destruct (N j J K) as [->|I]; [lia|exact I].
        + apply bind_back in E. destruct E as (x & c2 & E1 & E). destruct x as [[t k]|x]; [|destruct E as [E _]; discriminate E].
          apply handler_ranked in E1; [|exact U]. destruct E1 as (-> & es & K1 & K2 & K3).
          assert (U2 : unmoved c c2) by (eapply unmoved_trans; [exact U|eapply about_unmoved; eassumption]).
          apply IH in E; [|exact U2]. destruct E as (es' & M1 & M2 & M3). exists (es ++ es')%list.
          split; [eapply asks_app; eassumption|]. split; [now apply about_app|]. intros G [D1 D2] A SN ST.
          apply good_app in G. destruct G as [G G'].
          assert (WL : weak_at lp) by (apply A; now left).
          assert (LL : lt lp (length ts)).
          { destruct WL as (x & X & _). apply nth_error_Some. congruence. }
          assert (T : tailed lp t).
          { apply K3; [exact G|exact WL| |].
            - intros e p ->. destruct (ST e p eq_refl) as (-> & T & L & M & N). split; [exact T|].
              assert (lp <> p) by (intros ->; cbn in Q; rewrite Nat.eqb_refl in Q; discriminate Q).
              pose proof (M lp (or_introl eq_refl)). intros j J1 J2 J3.
              destruct (N j J3 J2) as [->|I]; [lia|]. apply D1 in I. lia.
            - intros ->. destruct (SN eq_refl) as (_ & _ & N). intros j J1 J3. destruct (N j J3) as [->|I]; [lia|]. apply D1 in I. lia. }
          refine (M3 G' D2 _ _ _); [intros i I; apply A; now right|discriminate|].
          intros e' p' [= <- <-]. split; [reflexivity|]. split; [exact T|]. split; [lia|]. split; [exact D1|].
          intros j J K. destruct st as [[e p]|].
          * destruct (ST e p eq_refl) as (-> & T' & L & M & N). pose proof (M lp (or_introl eq_refl)).
            destruct (N j J) as [->|I]; [lia|lia|exact I].
          * destruct (SN eq_refl) as (_ & _ & N). destruct (N j J) as [->|I]; [lia|exact I].
    Qed.
  End Fold.

  Lemma list_ranked c n : forall ts c1 u c', unmoved c c1 ->
    ast_from_syntax_list cfg fuel n ts c1 = Ok (Val u, c') ->
    exists es, asks cfg fuel c1 es c' /\ about ts es /\ (good es -> by_rank cfg c rank ts u).
  Proof.
    induction n as [|n IH]; intros ts c1 u c' U E; [discriminate|].
    destruct ts as [|t1 [|t2 [|t3 ts]]]; cbn [ast_from_syntax_list] in E.
    - discriminate E.
    - injection E as <- <-. exists []. split; [constructor|]. split; [apply about_nil|]. intros _. constructor.
    - injection E as <- <-. exists []. split; [constructor|]. split; [apply about_nil|]. intros _.
      apply RankTwo. unfold new_pair, branch. now destruct (pair_vars t1 t2).
    - set (l := t1 :: t2 :: t3 :: ts) in *.
      assert (HP : forall sub c1 w c', unmoved c c1 -> (forall t, In t sub -> In t l) -> ast_from_syntax_list cfg fuel n sub c1 = Ok (Val w, c') ->
        exists es, asks cfg fuel c1 es c' /\ about l es /\ (good es -> by_rank cfg c rank sub w)).
      { intros sub d w d' UD S X. apply IH in X; [|exact UD]. destruct X as (es & X1 & X2 & X3). exists es. split; [exact X1|].
        split; [eapply about_sub; eassumption|exact X3]. }
      apply bind_back in E. destruct E as (x & c2 & E1 & E). destruct x as [info|x]; [|destruct E as [E _]; discriminate E].
      apply (info_run c) in E1; [|exact U]. destruct E1 as (es1 & A1 & A2 & SY & PS).
      assert (U2 : unmoved c c2) by (eapply unmoved_trans; [exact U|eapply about_unmoved; eassumption]).
      destruct (ts_positions info) as [|p0 ps] eqn:PE; [discriminate E|]. rewrite <- PE in *.
      apply bind_back in E. destruct E as (x & c3 & E2 & E). destruct x as [a|x]; [|destruct E as [E _]; discriminate E].
      apply (traced_common cfg fuel l _ SY) in E2. destruct E2 as (es2 & B1 & B2 & LC & _).
      assert (U4 : unmoved c c3) by (eapply unmoved_trans; [exact U2|eapply about_unmoved; eassumption]).
      destruct a as [[]|].
      + assert (REST : exists es, asks cfg fuel c3 es c' /\ about l es).
        { match type of E with ?m c3 = _ => assert (TR : traced l m (fun _ _ => True)) end.
          { eapply (traced_bind cfg fuel l _ _ (fun _ _ => True)).
            { unfold heap_iter. destruct (heap_max (ts_positions info)); [|apply traced_ret; exact I].
              eapply traced_bind; [apply traced_shuffle|]. intros es o _. apply traced_ret. exact I. }
            intros es3 order _. eapply traced_bind.
            { apply (fold_left_kept cfg fuel PC (ast_from_syntax_list cfg fuel n) l).
              - intros sub S. eapply traced_sub; [exact S|apply list_keeps; assumption].
              - discriminate. }
            intros es4 [[t p]|] K; [apply traced_ret; exact I|intros d v d' X; discriminate X]. }
          apply TR in E. destruct E as (es & X1 & X2 & _). eauto. }
        destruct REST as (es3 & C1 & C2). exists (es1 ++ es2 ++ es3)%list.
        split; [eapply asks_app; [exact A1|]; eapply asks_app; eassumption|]. split; [repeat apply about_app; assumption|].
        intros G. apply good_app in G. destruct G as [_ G]. apply good_app in G. destruct G as [[_ G] _].
        destruct LC; [reflexivity|discriminate|exact G].
      + apply bind_back in E. destruct E as (x & c4 & E3 & E). destruct x as [[min tail]|x]; [|destruct E as [E _]; discriminate E].
        apply (fold_ranked _ l c HP) in E3; [|exact U4]. destruct E3 as (es3 & C1 & C2 & C3).
        assert (U6 : unmoved c c4) by (eapply unmoved_trans; [exact U4|eapply about_unmoved; eassumption]).
        assert (RES : good (es1 ++ es2 ++ es3) -> exists e p, tail = Some (e, p) /\ min = Some p /\ tailed l c p e /\ forall j, weak_at l c j -> le p j).
        { intros G. apply good_app in G. destruct G as [G1 G]. apply good_app in G. destruct G as [G2 G3]. specialize (PS (proj1 G1)).
          apply (C3 G3); [apply heap_pops_desc| | |discriminate].
          - intros i I. apply heap_pops_in, PS in I. exact I.
          - intros _. split; [reflexivity|]. split; [|intros j J; apply heap_pops_in, PS; exact J].
            intros Z. assert (I : In p0 (heap_pops (ts_positions info))) by (apply heap_pops_in; rewrite PE; now left). rewrite Z in I. destruct I. }
        destruct tail as [[e p]|]; [|discriminate E].
        assert (ASK : asks cfg fuel c1 (es1 ++ es2 ++ es3) c4) by (eapply asks_app; [exact A1|]; eapply asks_app; eassumption).
        assert (ABT : about l (es1 ++ es2 ++ es3)) by (repeat apply about_app; assumption).
        destruct min as [m|]; [|discriminate E].
        destruct (Nat.eqb_spec m 0) as [->|P0].
        * injection E as <- <-. exists (es1 ++ es2 ++ es3)%list. split; [exact ASK|]. split; [exact ABT|]. intros G.
          destruct (RES G) as (e' & p' & [= <- <-] & [= <-] & (segs & us & T1 & T2 & T3 & T4 & T5) & LO).
          cbn [skipn] in T1. destruct segs as [|s1 [|s2 segs]]; [congruence| |].
          -- inversion T4 as [|x1 x2 x3 x4 B1' B2']; subst. inversion B2'; subst. inversion T5; subst.
             ++ cbn in T1. rewrite app_nil_r in T1. rewrite <- T1. exact B1'.
             ++ match goal with G : right_grouped [] _ |- _ => inversion G end.
          -- rewrite <- T1. apply (RankCut _ _ _ (s1 :: s2 :: segs) us e); [cbn; lia|rewrite T1; cbn; lia| |exact T4|exact T5].
             rewrite T1. split.
             ++ intros seg I. destruct (T3 seg I) as (t & rest & -> & _ & K). eauto.
             ++ intros seg I. destruct (T3 seg) as (t & rest & -> & K & _); [now right|]. eauto.
        * apply bind_back in E. destruct E as (x & c5 & E4 & E). destruct x as [head|x]; [|destruct E as [E _]; discriminate E].
          apply HP in E4; [|exact U6|intros z Z; eapply part_in; [apply part_firstn|exact Z]]. destruct E4 as (es4 & D1 & D2 & D3).
          apply (traced_combine cfg fuel PC l) in E. destruct E as (es5 & M1 & M2 & -> & M3).
          exists ((es1 ++ es2 ++ es3) ++ es4 ++ [ECombine head e u])%list.
          split; [eapply asks_app; [exact ASK|]; eapply asks_app; eassumption|].
          split; [apply about_app; [exact ABT|]; now apply about_app|]. intros G. apply good_app in G. destruct G as [G1 G].
          apply good_app in G. destruct G as [G2 _]. specialize (D3 G2).
          destruct (RES G1) as (e' & p' & [= <- <-] & [= ->] & (segs & us & T1 & T2 & T3 & T4 & T5) & LO).
          assert (EQ : concat (firstn p l :: segs) = l) by (cbn; rewrite T1; apply firstn_skipn).
          assert (FN : exists t rest, firstn p l = t :: rest) by (destruct p; [congruence|]; cbn; eauto).
          assert (NW : forall s, In s (firstn p l) -> ~ weakest cfg c rank l s).
          { intros s I K. apply nth_in in I. destruct I as [i I].
            assert (X : lt i (length (firstn p l))) by (apply nth_error_Some; congruence).
            assert (Y : nth_error l i = Some s).
            { rewrite <- (firstn_skipn p l). rewrite nth_error_app1 by exact X. exact I. }
            rewrite firstn_length in X. assert (le p i) by (apply LO; exists s; auto). lia. }
          rewrite <- EQ. apply (RankCut _ _ _ (firstn p l :: segs) (head :: us) u).
          -- cbn. destruct segs; [congruence|cbn; lia].
          -- rewrite EQ. cbn. lia.
          -- rewrite EQ. split.
             ++ intros seg [<-|I].
                ** destruct FN as (t & rest & FN). exists t, rest. split; [exact FN|]. intros s S. apply NW. rewrite FN. now right.
                ** destruct (T3 seg I) as (t & rest & -> & _ & K). eauto.
             ++ intros seg I. destruct (T3 seg I) as (t & rest & -> & K & _). eauto.
          -- constructor; assumption.
          -- eapply GroupMore; [exact T5|exact M3].
      + discriminate E.
  Qed.
End Precedence.

(** ** The ranks determine the grouping *)
(** The two trees are the same expression of the same parts; the concepts found for the groups
    may differ. *)
Inductive same_shape : tree -> tree -> Prop :=
| ShapeSame t : same_shape t t
| ShapePair u v l r l' r' : t_exp u = Some (l, r) -> t_exp v = Some (l', r') -> same_shape l l' -> same_shape r r' -> same_shape u v.

Scheme by_rank_both := Induction for by_rank Sort Prop
  with all_by_rank_both := Induction for all_by_rank Sort Prop.

Lemma grouped_shape us : forall vs u v, Forall2 same_shape us vs -> right_grouped us u -> right_grouped vs v -> same_shape u v.
Proof.
  induction us as [|x us IH]; intros vs u v S G K; inversion S as [|a b c d S1 S2]; subst; [inversion G|].
  inversion G as [t|t ts u' w G1 E1]; subst.
  - inversion S2; subst. inversion K as [t|t ts v' w K1 E2]; subst; [exact S1|inversion K1].
  - inversion K as [t|t ts' v' w' K1 E2]; subst; [inversion S2; subst; inversion G1|].
    eapply ShapePair; [exact E1|exact E2|exact S1|]. eapply IH; eassumption.
Qed.
Lemma cut_tail weak seg segs : cut weak (seg :: segs) -> cut weak segs /\ forall s, In s segs -> exists t rest, s = t :: rest /\ weak t.
Proof.
  intros [H K]. cbn [tl] in K. split; [|exact K]. split; [intros s I; apply H; now right|].
  intros s I. apply K. destruct segs; [exact I|right; exact I].
Qed.
Lemma cut_unique weak : forall segs segs', cut weak segs -> cut weak segs' -> concat segs = concat segs' -> segs = segs'.
Proof.
  assert (A : forall (a b : list tree) x y, (forall s, In s a -> ~ weak s) -> (forall s, In s b -> ~ weak s) ->
    (forall t l, x = t :: l -> weak t) -> (forall t l, y = t :: l -> weak t) -> (a ++ x = b ++ y)%list -> a = b /\ x = y).
  { induction a as [|p a IH]; intros b x y HA HB HX HY E.
    - destruct b as [|q b]; [auto|]. cbn in E. destruct (HB q (or_introl eq_refl)). eapply HX, E.
    - destruct b as [|q b].
      + cbn in E. symmetry in E. destruct (HA p (or_introl eq_refl)). eapply HY, E.
      + cbn in E. injection E as <- E. apply IH in E; [destruct E as [-> ->]; auto| | |assumption|assumption].
        * intros s I. apply HA. now right.
        * intros s I. apply HB. now right. }
  assert (HDW : forall segs, (forall s, In s segs -> exists t rest, s = t :: rest /\ weak t) -> forall t l, concat segs = t :: l -> weak t).
  { intros [|s segs] H t l E; [discriminate E|]. destruct (H s (or_introl eq_refl)) as (t' & rest & -> & W). cbn in E. injection E as <- _. exact W. }
  induction segs as [|s segs IH]; intros [|s' segs'] C C' E.
  - reflexivity.
  - destruct (proj1 C' s' (or_introl eq_refl)) as (t & rest & -> & _). discriminate E.
  - destruct (proj1 C s (or_introl eq_refl)) as (t & rest & -> & _). discriminate E.
  - destruct (proj1 C s (or_introl eq_refl)) as (t & rest & -> & N). destruct (proj1 C' s' (or_introl eq_refl)) as (t' & rest' & -> & N').
    apply cut_tail in C, C'. destruct C as [C W], C' as [C' W']. cbn [concat app] in E. injection E as <- E.
    apply A in E; [|exact N|exact N'|apply HDW, W|apply HDW, W']. destruct E as [-> E]. f_equal. apply IH; assumption.
Qed.
Lemma concat_head segs (t : tree) ts weak : cut weak segs -> le 2 (length segs) -> concat segs = t :: ts -> exists s, In s ts /\ weak s.
Proof.
  intros C L E. destruct segs as [|s1 [|s2 segs]]; [cbn in L; lia|cbn in L; lia|].
  destruct (proj1 C s1 (or_introl eq_refl)) as (x & rest & -> & _). destruct (proj2 C s2 (or_introl eq_refl)) as (y & rest' & -> & W).
  cbn in E. injection E as _ <-. exists y. split; [|exact W]. rewrite in_app_iff. right. now left.
Qed.
Lemma rank_some cfg c rank ts u : by_rank cfg c rank ts u -> ts <> [].
Proof. intros B E. destruct B; try discriminate E. rewrite E in *. cbn in *. lia. Qed.
Lemma rank_one cfg c rank t u : by_rank cfg c rank [t] u -> u = t.
Proof.
  intros B. remember [t] as l eqn:TS. destruct B as [x|x y w E|x xs w u W N B1 E|segs us w L L3 C A G].
  - congruence.
  - discriminate TS.
  - injection TS as <- ->. destruct (rank_some _ _ _ _ _ B1 eq_refl).
  - rewrite TS in L3. cbn in L3. lia.
Qed.
Lemma rank_two cfg c rank l r u : by_rank cfg c rank [l; r] u -> t_exp u = Some (l, r).
Proof.
  intros B. remember [l; r] as ts eqn:TS. destruct B as [x|x y w E|x xs w u W N B1 E|segs us w L L3 C A G].
  - discriminate TS.
  - injection TS as <- <-. exact E.
  - injection TS as <- ->. apply rank_one in B1. congruence.
  - rewrite TS in L3. cbn in L3. lia.
Qed.
Lemma by_rank_shape cfg c rank ts u : by_rank cfg c rank ts u -> forall v, by_rank cfg c rank ts v -> same_shape u v.
Proof.
  revert ts u. refine (by_rank_both cfg c rank
    (fun ts u _ => forall v, by_rank cfg c rank ts v -> same_shape u v)
    (fun tss us _ => forall vs, all_by_rank cfg c rank tss vs -> Forall2 same_shape us vs) _ _ _ _ _ _).
  - intros t v B. apply rank_one in B. subst. constructor.
  - intros l r u E v B. apply rank_two in B. eapply ShapePair; [exact E|exact B|constructor|constructor].
  - intros t ts v u W N B IH E v' B'. remember (t :: ts) as l eqn:TS.
    destruct B' as [x|x y w E'|x xs w u' W1 N1 B1 E'|segs us w L L3 C A G].
    + injection TS as <- <-. destruct (rank_some _ _ _ _ _ B eq_refl).
    + injection TS as <- <-. eapply ShapePair; [exact E|exact E'|constructor|]. apply IH. constructor.
    + injection TS as <- <-. eapply ShapePair; [exact E|exact E'|constructor|]. apply IH. exact B1.
    + destruct (concat_head _ _ _ _ C L TS) as (s & I & K). destruct (N s I K).
  - intros segs us u L L3 C A IH G v B.
    remember (concat segs) as ts eqn:TS.
    destruct B as [x|x y w E'|x xs w u' W1 N1 B1 E'|segs' us' w L' L3' C' A' G'].
    + cbn in L3. lia.
    + cbn in L3. lia.
    + symmetry in TS. destruct (concat_head _ _ _ _ C L TS) as (s & I & K). destruct (N1 s I K).
    + assert (segs' = segs) as -> by (eapply cut_unique; eassumption). eapply grouped_shape; [apply IH, A'|exact G|exact G'].
  - intros vs B. inversion B; subst. constructor.
  - intros ts u tss us B IHB A IHA vs C. inversion C; subst. constructor; auto.
Qed.
