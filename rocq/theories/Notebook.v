(** A store kept as a notebook: symbols that were said to reduce to one another, and nothing that could be inferred about them. *)
From Verif Require Import Lexer LexerSpec Snapshot Search Context StoreSpec NameSpec MapFacts AstFacts StoreFacts StoreInv RangeFacts
  History Sim Keep Meaning Names OneName Frames Naming Settled Asking Unruled Answers Replies Spelled Displays Uttered Flat Checks Phrases Added.
From Coq Require Import List String Relations Permutation PeanoNat Lia.
Import ListNotations.
Local Open Scope zia_scope.

(** ** Specification *)
(** The word [w] is the name of the symbol [k], which is not made of others; nothing is composed of `->` or `=>`
    and [k]. *)
Definition symbol (s : snapshot) (w : text) (k : nat) : Prop :=
  means s w k /\ carries_label s k w /\ (leaf_variable s k Constant \/ exists cc, built_in s k cc) /\
  (forall op p, built_in s op CReduction \/ built_in s op CImplication -> ~ composed s p op k).
(** [V] is a list of words and the symbols they name, [B] a list of pairs of words. *)
Record notebook (s : snapshot) (V : list (text * nat)) (B : list (text * text)) : Prop := {
  (* nothing that is known to be true is about what a symbol reduces to *)
  nb_unruled : forall k, unruled s k;
  nb_operators : operators_named s;
  nb_let : exists n, In (txt "let", n) V /\ built_in s n CLet;
  nb_arrow : exists n, In (txt "->", n) V /\ built_in s n CReduction;
  nb_forget : exists n, In (txt "forget", n) V /\ built_in s n CForget /\ forall p r, ~ composed s p n r;
  nb_symbol : forall w k, In (w, k) V -> symbol s w k;
  (* the symbols reduce as the pairs say and not otherwise *)
  nb_book : forall w v, In (w, v) B -> exists k l, In (w, k) V /\ In (v, l) V /\ reduces s k l;
  nb_only : forall w k q, In (w, k) V -> reduces s k q -> exists v, In (w, v) B /\ In (v, q) V;
  (* nor is anything else recorded *)
  nb_listed : forall w k q, In (w, k) V -> lists_reduction_from s q k -> reduces s k q;
  nb_from : forall w q p, In (w, q) V -> leaf_variable s q Constant -> lists_reduction_from s q p -> exists u, In (u, p) V
}.
(** What more is needed for asking whether one symbol reduces to another: some words are names of what is built in,
    nothing says how symbols associate, and no rule with variables is about `->` or a symbol. *)
Record inquiry (s : snapshot) (V : list (text * nat)) : Prop := {
  iq_words : forall w cc, In (w, cc) [(txt "assoc", CAssociativity); (txt "true", CTrue); (txt "false", CFalse); (txt "label_of", CLabel)] ->
    exists n, In (w, n) V /\ built_in s n cc;
  iq_assoc : forall a p r, built_in s a CAssociativity -> ~ composed s p a r;
  iq_patterns : forall p a b, composed s p a b -> built_in s a CReduction \/ (exists w, In (w, b) V) -> pattern s p ->
    elementary s a /\ elementary s b
}.
(** What more is needed for evaluating sequences of symbols: nothing is composed of two of them, and no expression with
    variables is about one.  This does not have to hold of the words of the language other than `assoc`. *)
Definition reserved : list text :=
  map txt ["label_of"; ":="; "->"; "let"; "true"; "false"; "right"; "left"; ">"; "=>"; "exists_such_that"; "precedes"; "forget"; "and"]%string.
Record phrasing (s : snapshot) (V : list (text * nat)) : Prop := {
  ph_assoc : exists n, In (txt "assoc", n) V /\ built_in s n CAssociativity;
  ph_names : forall w k cc, In (w, k) V -> built_in s k cc -> cc = CAssociativity \/ In w reserved;
  ph_patterns : forall w k p, In (w, k) V -> ~ In w reserved -> mentions s p k -> ~ pattern s p;
  ph_apart : forall w k v l p, In (w, k) V -> In (v, l) V -> ~ In w reserved -> ~ In v reserved -> ~ composed s p k l
}.
(** What more is needed for asking whether one symbol reduces to another one that it has nothing to do with: no expression
    with variables mentions `->` or a symbol that is not a word of the language. *)
Definition uninvolved (s : snapshot) (V : list (text * nat)) : Prop :=
  forall w k p, In (w, k) V -> ~ In w reserved \/ built_in s k CReduction -> mentions s p k -> ~ pattern s p.
(** What more is needed for leaving out brackets: it is known how strongly `->` binds compared with other words, but
    nothing of that kind is known of words that are not reserved. *)
Record unbracketed (s : snapshot) (V : list (text * nat)) : Prop := {
  ub_arrow : forall k, built_in s k CReduction -> ranked s k;
  ub_plain : forall w k, In (w, k) V -> ~ In w reserved -> ~ ranked s k
}.
(** The word at the end of the chain of pairs. *)
Inductive leads_to (B : list (text * text)) : text -> text -> Prop :=
| LeadsHere w : (forall v, ~ In (w, v) B) -> leads_to B w w
| LeadsOn w v z : In (w, v) B -> leads_to B v z -> leads_to B w z.

(** ** What a store says, by what its concepts are *)
Lemma composed_spec s i l r : composed s i l r <-> exists fv bv red, spec_at s i = Some (Abstract (Comp l r fv bv) red).
Proof.
  unfold spec_at. split.
  - intros (c & fv & bv & red & -> & ->). eauto.
  - intros (fv & bv & red & E). destruct (lookup s i) as [c|] eqn:L; [|discriminate]. injection E as E. exists c, fv, bv, red. auto.
Qed.
Lemma reduces_spec s i r : reduces s i r <-> exists k, spec_at s i = Some (Abstract k (Some r)).
Proof.
  unfold spec_at. split.
  - intros (c & k & -> & ->). eauto.
  - intros (k & E). destruct (lookup s i) as [c|] eqn:L; [|discriminate]. injection E as E. exists c, k. auto.
Qed.
Lemma built_spec s i cc : built_in s i cc <-> spec_at s i = Some (Concrete cc).
Proof.
  unfold spec_at. split.
  - intros (c & -> & ->). auto.
  - intros E. destruct (lookup s i) as [c|] eqn:L; [|discriminate]. injection E as E. exists c. auto.
Qed.
Lemma text_spec s i t : has_text s i t <-> spec_at s i = Some (StringPart t).
Proof.
  unfold spec_at. split.
  - intros (c & -> & ->). auto.
  - intros E. destruct (lookup s i) as [c|] eqn:L; [|discriminate]. injection E as E. exists c. auto.
Qed.
Lemma leaf_spec s i ch : leaf_variable s i ch <-> exists red, spec_at s i = Some (Abstract (Leaf ch) red).
Proof.
  unfold spec_at. split.
  - intros (c & red & -> & ->). eauto.
  - intros (red & E). destruct (lookup s i) as [c|] eqn:L; [|discriminate]. injection E as E. exists c, red. auto.
Qed.
Lemma free_spec s i : (exists c l r v fv bv red, lookup s i = Some c /\ c_spec c = Abstract (Comp l r (v :: fv) bv) red) <->
  exists l r v fv bv red, spec_at s i = Some (Abstract (Comp l r (v :: fv) bv) red).
Proof.
  unfold spec_at. split.
  - intros (c & l & r & v & fv & bv & red & -> & ->). do 6 eexists. reflexivity.
  - intros (l & r & v & fv & bv & red & E). destruct (lookup s i) as [c|] eqn:L; [|discriminate]. injection E as E. exists c, l, r, v, fv, bv, red. auto.
Qed.

(** ** A declaration *)
Section Told.
  Variables (s s1 s' : snapshot) (lab : nat) (ws : text -> Prop) (x y : nat) (kx : composition nat).
  Variables (V : list (text * nat)) (B : list (text * text)) (w v : text).
  Local Notation n0 := (size s).
  Hypothesis S0 : sane s.
  Hypothesis LR : reductions_are_listed s.
  Hypothesis TR : strings_true s.
  Hypothesis TR' : strings_true s'.
  Hypothesis BL : built_in s lab CLabel.
  Hypothesis UL : forall a, built_in s a CLabel -> a = lab.
  Hypothesis ONE : forall k t u, carries_label s' k t -> carries_label s' k u -> t = u.
  Hypothesis HA : added s lab ws s1.
  Hypothesis HX : spec_at s1 x = Some (Abstract kx None).
  Hypothesis HX' : spec_at s' x = Some (Abstract kx (Some y)).
  Hypothesis HS : forall i, i <> x -> spec_at s' i = spec_at s1 i.
  Hypothesis HF : forall q p, In p (from_at s' q) <-> In p (from_at s1 q) \/ q = y /\ p = x.
  Hypothesis HU : forall q, ~ In x (from_at s1 q).
  Hypothesis HM : forall u, aget text_eqb u (string_map s') = aget text_eqb u (string_map s1).
  Hypothesis HK : forall u n, found_under s u n -> found_under s' u n.
  Hypothesis Fx : found_under s' w x.
  Hypothesis Fy : found_under s' v y.
  Hypothesis Ox : lt x n0 -> found_under s w x.
  Hypothesis Oy : lt y n0 -> found_under s v y.
  Hypothesis Cx : le n0 x -> carries_label s1 x w.
  Hypothesis Ny : le n0 y -> spec_at s1 y = Some (Abstract (Leaf Constant) None) /\ (forall q, ~ In y (from_at s1 q)) /\ carries_label s1 y v.
  Hypothesis XY : x <> y.
  Hypothesis NB : notebook s V B.
  Hypothesis Kw : (exists k, In (w, k) V) \/ forall n, ~ found_under s w n.
  Hypothesis Kv : (exists k, In (v, k) V) \/ forall n, ~ found_under s v n.
  Hypothesis Pw : word w /\ ~ underscored w.
  Hypothesis Pv : word v /\ ~ underscored v.
  Hypothesis Nw : forall u, ~ In (w, u) B.

  Lemma known_symbol u k : In (u, k) V -> (exists red, spec_at s k = Some (Abstract (Leaf Constant) red)) \/ exists cc, spec_at s k = Some (Concrete cc).
  Proof.
    intros J. destruct (nb_symbol _ _ _ NB _ _ J) as (_ & _ & [K|(cc & K)] & _).
    - left. apply leaf_spec, K.
    - right. exists cc. apply built_spec, K.
  Qed.
  Lemma known_lt u k : In (u, k) V -> lt k n0.
  Proof. intros J. destruct (known_symbol _ _ J) as [(red & E)|(cc & E)]; exact (spec_lt _ _ _ E). Qed.
  Lemma x_known : lt x n0 -> In (w, x) V.
  Proof.
    intros L. destruct Kw as [(k & J)|N]; [|destruct (N _ (Ox L))].
    destruct (nb_symbol _ _ _ NB _ _ J) as ((_ & _ & _ & U) & _). rewrite (U _ (Ox L)). exact J.
  Qed.
  Lemma y_known : lt y n0 -> In (v, y) V.
  Proof.
    intros L. destruct Kv as [(k & J)|N]; [|destruct (N _ (Oy L))].
    destruct (nb_symbol _ _ _ NB _ _ J) as ((_ & _ & _ & U) & _). rewrite (U _ (Oy L)). exact J.
  Qed.
  Lemma spec_old1 i : lt i n0 -> spec_at s1 i = spec_at s i.
  Proof. apply (proj1 HA). Qed.
  Lemma x_leaf : kx = Leaf Constant.
  Proof.
    destruct (Nat.lt_ge_cases x n0) as [L|L].
    - pose proof (spec_old1 _ L) as E. rewrite HX in E. destruct (known_symbol _ _ (x_known L)) as [(red & E')|(cc & E')]; congruence.
    - destruct (proj1 (proj2 HA) x L (spec_lt _ _ _ HX)) as [(_ & t & E & _)|[E|(q & _ & k & E & _)]]; congruence.
  Qed.
  Lemma old i : lt i n0 -> i <> x -> spec_at s' i = spec_at s i.
  Proof. intros L N. rewrite (HS _ N). exact (spec_old1 _ L). Qed.
  (** What is new. *)
  Lemma fresh i k : le n0 i -> spec_at s' i = Some k -> (exists t, k = StringPart t) \/ (exists red, k = Abstract (Leaf Constant) red) \/
    exists r fv bv red, k = Abstract (Comp lab r fv bv) red /\ le n0 r.
  Proof.
    intros L E. destruct (Nat.eq_dec i x) as [->|N]; [rewrite HX', x_leaf in E; injection E as <-; right; left; eauto|].
    rewrite (HS _ N) in E. destruct (proj1 (proj2 HA) i L (spec_lt _ _ _ E)) as [(_ & t & E' & _)|[E'|(q & _ & k' & E' & [->|(r & bv & -> & Lr)])]];
      rewrite E in E'; injection E' as ->; eauto 10.
  Qed.
  Lemma fresh_plain i : le n0 i -> ~ pattern s' i.
  Proof.
    intros L P. apply (proj1 (free_spec s' i)) in P. destruct P as (l & r & u & f & b & rd & E).
    destruct (Nat.eq_dec i x) as [->|N]; [rewrite HX', x_leaf in E; discriminate|].
    rewrite (HS _ N) in E. destruct (proj1 (proj2 HA) i L (spec_lt _ _ _ E)) as [(_ & t & E' & _)|[E'|(q & _ & k' & E' & [->|(r' & bv & -> & Lr)])]];
      rewrite E in E'; discriminate.
  Qed.
  Lemma composed_back i a b : composed s' i a b -> (lt i n0 /\ i <> x /\ composed s i a b) \/ (le n0 i /\ a = lab /\ le n0 b).
  Proof.
    intros C. apply composed_spec in C. destruct C as (fv & bv & red & E).
    assert (N : i <> x) by (intros ->; rewrite HX', x_leaf in E; discriminate).
    destruct (Nat.lt_ge_cases i n0) as [L|L].
    - left. split; [exact L|]. split; [exact N|]. apply composed_spec. rewrite <- (old _ L N). eauto.
    - right. split; [exact L|]. destruct (fresh _ _ L E) as [(t & [=])|[(r & [=])|(r & f & b' & rd & [= -> -> _ _ _] & Lr)]]. auto.
  Qed.
  Lemma composed_forth i a b : composed s i a b -> composed s' i a b.
  Proof.
    intros C. apply composed_spec in C. destruct C as (fv & bv & red & E). apply composed_spec. exists fv, bv, red. rewrite old; [exact E|exact (spec_lt _ _ _ E)|].
    intros ->. pose proof (spec_old1 x (spec_lt _ _ _ E)) as E'. rewrite HX, E, x_leaf in E'. discriminate.
  Qed.
  Lemma part_lt i a b : composed s i a b -> lt a n0 /\ lt b n0.
  Proof. intros C. apply composed_at in C. exact (comp_parts_lt s _ _ _ S0 C). Qed.
  Lemma built_back i cc : built_in s' i cc -> built_in s i cc.
  Proof.
    rewrite !built_spec. intros E. assert (N : i <> x) by (intros ->; congruence).
    destruct (Nat.lt_ge_cases i n0) as [L|L]; [rewrite <- (old _ L N); exact E|].
    destruct (fresh _ _ L E) as [(t & [=])|[(r & [=])|(r & f & b' & rd & [=] & Lr)]].
  Qed.
  Lemma built_forth i cc : built_in s i cc -> built_in s' i cc.
  Proof.
    rewrite !built_spec. intros E. rewrite old; [exact E|exact (spec_lt _ _ _ E)|].
    intros ->. pose proof (spec_old1 x (spec_lt _ _ _ E)) as E'. congruence.
  Qed.
  Lemma reduces_back i q : reduces s' i q -> (i = x /\ q = y) \/ (i <> x /\ lt i n0 /\ lt q n0 /\ reduces s i q) \/ (i <> x /\ leads s lab ws s1 i q /\ le n0 i).
  Proof.
    intros C. apply reduces_spec in C. destruct C as (k & E). destruct (Nat.eq_dec i x) as [->|N]; [left; split; [reflexivity|congruence]|right].
    destruct (Nat.lt_ge_cases i n0) as [L|L].
    - left. rewrite (old _ L N) in E. assert (Rd : reduces s i q) by (apply reduces_spec; eauto). split; [exact N|]. split; [exact L|]. split; [|exact Rd].
      destruct (LR _ _ Rd) as (c & Lc & _). exact (lookup_lt _ _ _ Lc).
    - right. split; [exact N|]. split; [|exact L]. rewrite (HS _ N) in E.
      destruct (proj1 (proj2 HA) i L (spec_lt _ _ _ E)) as [(_ & t & E' & _)|[E'|(q' & LD)]]; try congruence.
      pose proof LD as (_ & k' & E' & _). assert (q' = q) as -> by congruence. exact LD.
  Qed.
  Lemma reduces_forth i q : reduces s i q -> i <> x /\ reduces s' i q.
  Proof.
    intros C. apply reduces_spec in C. destruct C as (k & E).
    assert (N : i <> x). { intros ->. pose proof (spec_old1 x (spec_lt _ _ _ E)) as E'. congruence. }
    split; [exact N|]. apply reduces_spec. exists k. rewrite old; [exact E|exact (spec_lt _ _ _ E)|exact N].
  Qed.
  Lemma text_back i t : lt i n0 -> has_text s' i t -> has_text s i t.
  Proof. rewrite !text_spec. intros L E. rewrite <- (old _ L); [exact E|]. intros ->. congruence. Qed.
  Lemma text_forth i t : has_text s i t -> has_text s' i t.
  Proof.
    rewrite !text_spec. intros E. rewrite old; [exact E|exact (spec_lt _ _ _ E)|].
    intros ->. pose proof (spec_old1 x (spec_lt _ _ _ E)) as E'. congruence.
  Qed.
  Lemma leaf_back i ch : ch <> Constant -> leaf_variable s' i ch -> lt i n0 /\ leaf_variable s i ch.
  Proof.
    rewrite !leaf_spec. intros NC (red & E). assert (N : i <> x) by (intros ->; rewrite HX', x_leaf in E; congruence).
    destruct (Nat.lt_ge_cases i n0) as [L|L]; [split; [exact L|exists red; rewrite <- (old _ L N); exact E]|].
    destruct (fresh _ _ L E) as [(t & [=])|[(r & [= ? ?])|(r & f & b' & rd & [=] & Lr)]]. congruence.
  Qed.
  (** Listings. *)
  Lemma listed_old q p : In p (from_at s q) -> lt p n0 /\ lt q n0.
  Proof.
    intros J. split; [exact (listed_lt s p q S0 J)|]. unfold from_at in J. destruct (lookup s q) eqn:L; [|destruct J]. exact (lookup_lt _ _ _ L).
  Qed.
  Lemma listed_back q p : In p (from_at s' q) -> In p (from_at s q) \/ (q = y /\ p = x) \/
    (le n0 p /\ leads s lab ws s1 p q /\ forall p', In p' (from_at s1 q) -> p' = p).
  Proof.
    intros J. apply HF in J. destruct J as [J|J]; [|auto]. destruct (proj1 (proj2 (proj2 HA)) q p J) as [J'|J']; auto.
  Qed.
  Definition entry (k : nat) : Prop := exists u, In (u, k) V.
  Lemma entry_up q p : entry p -> In p (from_at s q) -> entry q.
  Proof.
    intros (u & J) L. pose proof (nb_listed _ _ _ NB _ _ _ J (proj2 (from_at_spec _ _ _) L)) as Rd.
    destruct (nb_only _ _ _ NB _ _ _ J Rd) as (u' & _ & J'). exists u'. exact J'.
  Qed.
  Lemma y_entry : lt y n0 -> entry y.
  Proof. intros L. exists v. exact (y_known L). Qed.
  (** Paths from an old string. *)
  Lemma old_path q p : clos_trans_1n nat (lists_reduction_from s') q p -> lt q n0 -> ~ entry q ->
    clos_trans nat (lists_reduction_from s) q p /\ lt p n0.
  Proof.
    induction 1 as [q p J|q r p J _ IH]; intros Lq Nq.
    all: pose proof J as J'; apply from_at_spec in J'; destruct (listed_back _ _ J') as [L|[[-> ->]|(_ & ((Lb & _) & _) & _)]];
      [|exfalso; exact (Nq (y_entry Lq))|lia].
    all: pose proof L as L'; apply from_at_spec in L'; destruct (listed_old _ _ L) as [Lr _].
    - split; [apply t_step, L'|exact Lr].
    - destruct (IH Lr) as [T Lp]; [intros Er; exact (Nq (entry_up _ _ Er L))|]. split; [|exact Lp]. eapply t_trans; [apply t_step, L'|exact T].
  Qed.
  Lemma new_path q p t : clos_trans_1n nat (lists_reduction_from s') q p -> le n0 q -> has_text s' q t ->
    In p (from_at s1 q) /\ le n0 p /\ leads s lab ws s1 p q /\ forall p', In p' (from_at s1 q) -> p' = p.
  Proof.
    intros H Lq T.
    assert (Q : q <> y).
    { intros ->. destruct (Ny Lq) as [E _]. apply text_spec in T. rewrite HS in T by congruence. congruence. }
    assert (ONE1 : forall p, lists_reduction_from s' q p -> In p (from_at s1 q) /\ le n0 p /\ leads s lab ws s1 p q /\ forall p', In p' (from_at s1 q) -> p' = p).
    { intros r J. apply from_at_spec in J. pose proof J as J0. apply HF in J0. destruct J0 as [J0|[-> _]]; [|destruct (Q eq_refl)].
      split; [exact J0|]. destruct (listed_back _ _ J) as [L|[[-> _]|L]]; [apply listed_old in L; lia|destruct (Q eq_refl)|exact L]. }
    destruct H as [p J|r p J H]; [exact (ONE1 _ J)|]. exfalso. destruct (ONE1 _ J) as (_ & Lr & (_ & k & Er & _) & _).
    assert (X : exists z, lists_reduction_from s' r z) by (destruct H; eauto). destruct X as (z & X). apply from_at_spec in X.
    destruct (listed_back _ _ X) as [L|[[-> _]|(_ & ((_ & t' & Et & _) & _) & _)]].
    - apply listed_old in L. lia.
    - destruct (Ny Lr) as [E _]. congruence.
    - congruence.
  Qed.
  Lemma found_back u m : found_under s' u m -> found_under s u m \/
    (le n0 m /\ ws u /\ exists str, aget text_eqb u (string_map s') = Some str /\ le n0 str).
  Proof.
    intros (str & comp & l & A & PT & C & Bl). apply clos_trans_t1n in PT. pose proof (TR' _ _ A) as T.
    destruct (Nat.lt_ge_cases str n0) as [L|L].
    - left. pose proof (text_back _ _ L T) as T0. assert (NE : ~ entry str).
      { intros (k & J). apply text_spec in T0. destruct (known_symbol _ _ J) as [(red & E)|(cc & E)]; congruence. }
      destruct (old_path _ _ PT L NE) as [PT' Lp]. exists str, comp, l. split; [|split; [exact PT'|]].
      + rewrite HM in A. destruct (proj2 (proj2 (proj2 HA)) _ _ A) as [A'|[A' _]]; [exact A'|lia].
      + destruct (composed_back _ _ _ C) as [(_ & _ & C')|(Lc & _)]; [|lia]. split; [exact C'|apply built_back, Bl].
    - right. destruct (new_path _ _ _ PT L T) as (_ & Lp & LD & _).
      destruct (composed_back _ _ _ C) as [(Lc & _)|(_ & _ & Lm)]; [lia|]. split; [exact Lm|].
      split; [|eauto]. rewrite HM in A. destruct (proj2 (proj2 (proj2 HA)) _ _ A) as [A'|[_ A']]; [|exact A'].
      apply TR, text_spec, spec_lt in A'. lia.
  Qed.
  Lemma found_one u m m' str : aget text_eqb u (string_map s') = Some str -> le n0 str -> found_under s' u m -> found_under s' u m' -> m = m'.
  Proof.
    intros A L (str1 & comp1 & l1 & A1 & PT1 & C1 & _) (str2 & comp2 & l2 & A2 & PT2 & C2 & _).
    rewrite A in A1, A2. injection A1 as <-. injection A2 as <-. apply clos_trans_t1n in PT1, PT2. pose proof (TR' _ _ A) as T.
    destruct (new_path _ _ _ PT1 L T) as (J1 & _ & _ & U1). destruct (new_path _ _ _ PT2 L T) as (J2 & _).
    rewrite (U1 _ J2) in C2. apply composed_spec in C1, C2. destruct C1 as (? & ? & ? & C1), C2 as (? & ? & ? & C2). congruence.
  Qed.
  Lemma found_known u k m : found_under s u k -> found_under s' u m -> found_under s u m.
  Proof.
    intros K H. destruct (found_back _ _ H) as [H'|(Lm & _ & str & A & L)]; [exact H'|]. exfalso.
    pose proof (found_one _ _ _ _ A L H (HK _ _ K)) as ->. destruct K as (str' & comp & l & _ & _ & C & _). apply part_lt in C. lia.
  Qed.
  Lemma means_forth u k : means s u k -> means s' u k.
  Proof.
    intros (W & U & K & Q). split; [exact W|]. split; [exact U|]. split; [apply HK, K|]. intros m H. apply Q. exact (found_known _ _ _ K H).
  Qed.
  Lemma means_told u k q : found_under s' u k -> word u /\ ~ underscored u -> ((exists k, In (u, k) V) \/ forall n, ~ found_under s u n) ->
    (lt k n0 -> In (u, k) V) -> q = k -> means s' u q.
  Proof.
    intros H [W U] [(k' & J)|N] _ ->.
    - destruct (nb_symbol _ _ _ NB _ _ J) as (M & _). pose proof (means_forth _ _ M) as M'. pose proof M' as (_ & _ & _ & Q). rewrite (Q _ H). exact M'.
    - split; [exact W|]. split; [exact U|]. split; [exact H|]. intros m H'.
      destruct (found_back _ _ H) as [Z|(_ & _ & str & A & L)]; [destruct (N _ Z)|]. exact (found_one _ _ _ _ A L H' H).
  Qed.
  Lemma unknown_stays u : ~ ws u -> (forall n, ~ found_under s u n) -> forall n, ~ found_under s' u n.
  Proof. intros NW N n H. destruct (found_back _ _ H) as [H'|(_ & W & _)]; [exact (N _ H')|exact (NW W)]. Qed.
  (** ** Names *)
  Lemma kept i k : spec_at s1 i = Some k -> k <> Abstract kx None -> spec_at s' i = Some k.
  Proof. intros E N. rewrite HS; [exact E|]. intros ->. congruence. Qed.
  Lemma carries_on k t : carries_label s1 k t -> carries_label s' k t.
  Proof.
    intros (l & comp & str & Bl & C & R & T). exists l, comp, str. apply built_spec in Bl. apply text_spec in T.
    apply composed_spec in C. destruct C as (fv & bv & red & C).
    split; [apply built_spec, kept; [exact Bl|discriminate]|]. split.
    { apply composed_spec. exists fv, bv, red. apply kept; [exact C|rewrite x_leaf; discriminate]. }
    split; [|apply text_spec, kept; [exact T|discriminate]].
    clear - R HX HS. induction R as [a b H|a b d _ IH1 _ IH2]; [|eapply t_trans; eassumption].
    apply t_step. apply reduces_spec in H. destruct H as (k' & E). apply reduces_spec. exists k'. rewrite HS; [exact E|]. intros ->. congruence.
  Qed.
  Lemma carries_forth k t : carries_label s k t -> carries_label s' k t.
  Proof.
    intros (l & comp & str & Bl & C & R & T). exists l, comp, str. split; [apply built_forth, Bl|]. split; [apply composed_forth, C|].
    split; [|apply text_forth, T]. clear C T. induction R as [a b H|a b d _ IH1 _ IH2]; [|eapply t_trans; eassumption].
    apply t_step. exact (proj2 (reduces_forth _ _ H)).
  Qed.
  Lemma carries_back k t : lt k n0 -> carries_label s' k t -> carries_label s k t.
  Proof.
    intros Lk (l & comp & str & Bl & C & R & T). destruct (composed_back _ _ _ C) as [(Lc & _ & C')|(_ & _ & L)]; [|lia].
    exists l, comp, str. split; [apply built_back, Bl|]. split; [exact C'|].
    apply clos_trans_t1n in R.
    assert (Q : lt comp n0 /\ (entry comp -> exists cc, built_in s comp cc)).
    { split; [exact Lc|]. intros (u & J). apply composed_spec in C'. destruct C' as (fv & bv & red & E).
      destruct (known_symbol _ _ J) as [(rd & E')|(cc & E')]; congruence. }
    clear C C' Lc. revert Q. induction R as [i q H|i j q H _ IH]; intros [Li Q].
    all: assert (Ne : ~ entry i)
      by (intros J; destruct (Q J) as (cc & K); apply built_forth, built_spec in K; apply reduces_spec in H; destruct H as (k' & H); congruence).
    all: assert (Nx : i <> x) by (intros ->; apply Ne; exists w; exact (x_known Li)).
    all: destruct (reduces_back _ _ H) as [[-> _]|[(_ & _ & Lq & H')|(_ & _ & L)]]; [destruct (Nx eq_refl)| |lia].
    - split; [apply t_step, H'|exact (text_back _ _ Lq T)].
    - destruct (IH T) as [R' T'].
      { split; [exact Lq|]. intros (u & J). destruct (nb_symbol _ _ _ NB _ _ J) as (_ & _ & [K|K] & _); [|exact K].
        exfalso. exact (Ne (nb_from _ _ _ NB _ _ _ J K (LR _ _ H'))). }
      split; [|exact T']. eapply t_trans; [apply t_step, H'|exact R'].
  Qed.
  Lemma goes_by_back n t : goes_by s' n t -> lt n n0 -> goes_by s n t.
  Proof.
    induction 1 as [n t C|n m t N Rd _ IH]; intros L; [apply GoesByLabel, carries_back; assumption|].
    destruct (reduces_back _ _ Rd) as [[-> _]|[(_ & _ & Lm & Rd')|(_ & _ & L')]]; [| |lia].
    - exfalso. destruct Fx as (str & comp & l & _ & _ & C & Bl). exact (N _ _ Bl C).
    - apply (GoesByReduction s n m t); [|exact Rd'|exact (IH Lm)]. intros l comp Bl C. exact (N _ _ (built_forth _ _ Bl) (composed_forth _ _ _ C)).
  Qed.
  (** ** What may be said *)
  Lemma indefinite_back n : lt n n0 -> indefinite s' n -> indefinite s n.
  Proof.
    intros L [K|[K|[K|(t & G & T)]]].
    - left. apply leaf_back in K; [exact (proj2 K)|discriminate].
    - right. left. apply leaf_back in K; [exact (proj2 K)|discriminate].
    - right. right. left. apply free_spec in K. apply free_spec. destruct K as (l & r & v' & fv & bv & red & E).
      exists l, r, v', fv, bv, red. rewrite <- (old _ L); [exact E|]. intros ->. rewrite HX', x_leaf in E. discriminate.
    - right. right. right. exists t. split; [exact (goes_by_back _ _ G L)|exact T].
  Qed.
  Lemma x_says hs : may_say s' hs x -> hs = [].
  Proof.
    intros H. inversion H as [|hs' n K|h hs' n a b b' C]; [reflexivity| |]; subst; exfalso.
    - apply leaf_spec in K. destruct K as (red & K). rewrite HX', x_leaf in K. discriminate.
    - apply composed_spec in C. destruct C as (fv & bv & red & C). rewrite HX', x_leaf in C. discriminate.
  Qed.
  Lemma same_back b b' : lt b n0 -> same_or_reducing s' b b' -> (same_or_reducing s b b' /\ lt b' n0) \/ b' = x.
  Proof.
    intros L [->|H]; [left; split; [left; reflexivity|exact L]|]. apply from_at_spec in H.
    destruct (listed_back _ _ H) as [J|[[_ ->]|(_ & ((L' & _) & _) & _)]]; [|right; reflexivity|lia].
    left. split; [right; apply from_at_spec, J|exact (proj1 (listed_old _ _ J))].
  Qed.
  Lemma says_back hs n : may_say s' hs n -> lt n n0 -> may_say s hs n.
  Proof.
    induction 1 as [n|hs n K|h hs n a b b' C I Sb M IH]; intros L; [apply SaysAny|apply SaysVariable; apply leaf_back in K; [exact (proj2 K)|discriminate]|].
    destruct (composed_back _ _ _ C) as [(_ & _ & C')|(L' & _)]; [|lia]. destruct (part_lt _ _ _ C') as [La Lb].
    assert (I' : a = h \/ indefinite s a) by (destruct I as [I|I]; [left; exact I|right; exact (indefinite_back _ La I)]).
    destruct (same_back _ _ Lb Sb) as [[S2 L2]| ->].
    - exact (SaysPair s h hs n a b b' C' I' S2 (IH L2)).
    - rewrite (x_says _ M). apply (SaysPair s h [] n a b b C' I'); [left; reflexivity|apply SaysAny].
  Qed.
  Lemma unruled_told k : unruled s' k.
  Proof.
    intros tr imp red z cond q q' Bt Bi Br Sz C Sq M. apply built_back in Bt, Bi, Br.
    assert (Lt : lt tr n0) by (apply built_spec, spec_lt in Bt; exact Bt).
    destruct (same_back _ _ Lt Sz) as [[Sz' Lz]| ->].
    2:{ apply composed_spec in C. destruct C as (fv & bv & rd & C). rewrite HX', x_leaf in C. discriminate. }
    destruct (composed_back _ _ _ C) as [(_ & _ & C')|(L' & _)]; [|lia]. destruct (part_lt _ _ _ C') as [_ Lq].
    destruct (same_back _ _ Lq Sq) as [[Sq' Lq']| ->]; [|apply x_says in M; discriminate].
    exact (nb_unruled _ _ _ NB k _ _ _ _ _ _ _ Bt Bi Br Sz' C' Sq' (says_back _ _ M Lq')).
  Qed.
  Lemma operators_told : operators_named s'.
  Proof.
    intros n t H G. assert (H' : built_in s n CImplication \/ built_in s n CReduction) by (destruct H as [H|H]; apply built_back in H; auto).
    apply (nb_operators _ _ _ NB n t H'). apply (goes_by_back _ _ G). destruct H' as [H'|H']; apply built_spec, spec_lt in H'; exact H'.
  Qed.
  (** ** The notebook with one more pair *)
  Lemma uncomposed k : ((exists u, In (u, k) V) \/ le n0 k) -> forall op p, built_in s' op CReduction \/ built_in s' op CImplication -> ~ composed s' p op k.
  Proof.
    intros K op p H C. assert (H' : built_in s op CReduction \/ built_in s op CImplication) by (destruct H as [H|H]; apply built_back in H; auto).
    destruct (composed_back _ _ _ C) as [(_ & _ & C')|(_ & -> & _)].
    - destruct K as [(u & J)|L]; [|apply part_lt in C'; lia]. destruct (nb_symbol _ _ _ NB _ _ J) as (_ & _ & _ & N). exact (N _ _ H' C').
    - pose proof (proj1 (built_spec _ _ _) BL) as E. destruct H' as [H'|H']; apply built_spec in H'; congruence.
  Qed.
  Lemma symbol_forth u k : In (u, k) V -> symbol s' u k.
  Proof.
    intros J. destruct (nb_symbol _ _ _ NB _ _ J) as (M & C & K & _). split; [exact (means_forth _ _ M)|]. split; [exact (carries_forth _ _ C)|].
    split; [|apply uncomposed; eauto]. destruct K as [K|(cc & K)]; [left|right; exists cc; apply built_forth, K].
    apply leaf_spec in K. apply leaf_spec. destruct (Nat.eq_dec k x) as [->|N]; [rewrite HX', x_leaf; eauto|]. rewrite (old _ (known_lt _ _ J) N). exact K.
  Qed.
  Lemma symbol_x : symbol s' w x.
  Proof.
    destruct (Nat.lt_ge_cases x n0) as [L|L]; [exact (symbol_forth _ _ (x_known L))|].
    split; [exact (means_told _ _ _ Fx Pw Kw x_known eq_refl)|]. split; [exact (carries_on _ _ (Cx L))|]. split; [|apply uncomposed; auto].
    left. apply leaf_spec. rewrite HX', x_leaf. eauto.
  Qed.
  Lemma symbol_y : symbol s' v y.
  Proof.
    destruct (Nat.lt_ge_cases y n0) as [L|L]; [exact (symbol_forth _ _ (y_known L))|]. destruct (Ny L) as (E & _ & C).
    split; [exact (means_told _ _ _ Fy Pv Kv y_known eq_refl)|]. split; [exact (carries_on _ _ C)|]. split; [|apply uncomposed; auto].
    left. apply leaf_spec. rewrite HS by congruence. rewrite E. eauto.
  Qed.
  Lemma told_known u k : In (u, k) ((w, x) :: (v, y) :: V) -> lt k n0 -> In (u, k) V.
  Proof. intros [[= <- <-]|[[= <- <-]|J]] L; [exact (x_known L)|exact (y_known L)|exact J]. Qed.
  Lemma told_symbol u k : In (u, k) ((w, x) :: (v, y) :: V) -> symbol s' u k.
  Proof. intros [[= <- <-]|[[= <- <-]|J]]; [exact symbol_x|exact symbol_y|exact (symbol_forth _ _ J)]. Qed.
  Lemma told_new u k : In (u, k) ((w, x) :: (v, y) :: V) -> le n0 k -> exists kk, spec_at s1 k = Some (Abstract kk None).
  Proof.
    intros [[= <- <-]|[[= <- <-]|J]] L; [eauto|exists (Leaf Constant); exact (proj1 (Ny L))|apply known_lt in J; lia].
  Qed.
  Theorem told_notebook : notebook s' ((w, x) :: (v, y) :: V) ((w, v) :: B).
  Proof.
    assert (RX : reduces s' x y) by (apply reduces_spec; eauto). split.
    - exact unruled_told.
    - exact operators_told.
    - destruct (nb_let _ _ _ NB) as (n & J & K). exists n. split; [right; right; exact J|apply built_forth, K].
    - destruct (nb_arrow _ _ _ NB) as (n & J & K). exists n. split; [right; right; exact J|apply built_forth, K].
    - destruct (nb_forget _ _ _ NB) as (n & J & K & NC). exists n. split; [right; right; exact J|]. split; [apply built_forth, K|].
      intros p r C. destruct (composed_back _ _ _ C) as [(_ & _ & C')|(_ & E & _)]; [exact (NC _ _ C')|]. subst n. apply built_spec in K. pose proof BL as BL'. apply built_spec in BL'. congruence.
    - exact told_symbol.
    - intros u u' [[= <- <-]|J].
      + exists x, y. split; [left; reflexivity|]. split; [right; left; reflexivity|exact RX].
      + destruct (nb_book _ _ _ NB _ _ J) as (k & l & J1 & J2 & Rd). exists k, l. split; [right; right; exact J1|]. split; [right; right; exact J2|].
        exact (proj2 (reduces_forth _ _ Rd)).
    - intros u k q J Rd. destruct (reduces_back _ _ Rd) as [[-> ->]|[(N & L & _ & Rd')|(_ & (_ & k' & E & _) & L)]].
      + exists v. split; [left|right; left; reflexivity]. f_equal. destruct (told_symbol _ _ J) as (_ & C & _), symbol_x as (_ & C' & _). exact (ONE _ _ _ C' C).
      + destruct (nb_only _ _ _ NB _ _ _ (told_known _ _ J L) Rd') as (u' & J1 & J2). exists u'. split; [right; exact J1|right; right; exact J2].
      + destruct (told_new _ _ J L) as (kk & E'). congruence.
    - intros u k q J H. apply from_at_spec in H. destruct (listed_back _ _ H) as [H'|[[-> ->]|(L & (_ & k' & E & _) & _)]]; [|exact RX|].
      + destruct (listed_old _ _ H') as [L _]. apply from_at_spec in H'. exact (proj2 (reduces_forth _ _ (nb_listed _ _ _ NB _ _ _ (told_known _ _ J L) H'))).
      + destruct (told_new _ _ J L) as (kk & E'). congruence.
    - intros u q p J K H. apply from_at_spec in H. destruct (listed_back _ _ H) as [H'|[[-> ->]|(_ & ((L & t & E & _) & _) & _)]].
      + destruct (listed_old _ _ H') as [_ L]. pose proof (told_known _ _ J L) as J'. apply from_at_spec in H'.
        destruct (nb_symbol _ _ _ NB _ _ J') as (_ & _ & [K'|(cc & K')] & _).
        * destruct (nb_from _ _ _ NB _ _ _ J' K' H') as (u' & J2). exists u'. right. right. exact J2.
        * apply built_forth, built_spec in K'. apply leaf_spec in K. destruct K as (red & K). congruence.
      + exists w. left. reflexivity.
      + destruct (told_new _ _ J L) as (kk & E'). congruence.
  Qed.
  Lemma elementary_forth k : elementary s k -> elementary s' k.
  Proof.
    intros [(cc & K)|K]; [left; exists cc; apply built_forth, K|right]. apply leaf_spec in K. destruct K as (red & K). apply leaf_spec.
    destruct (Nat.eq_dec k x) as [->|N]; [rewrite HX', x_leaf; eauto|]. exists red. rewrite old; [exact K|exact (spec_lt _ _ _ K)|exact N].
  Qed.
  Lemma told_inquiry : inquiry s V -> inquiry s' ((w, x) :: (v, y) :: V).
  Proof.
    intros Q. split.
    - intros u cc J. destruct (iq_words _ _ Q _ _ J) as (n & J' & K). exists n. split; [right; right; exact J'|apply built_forth, K].
    - intros a p r K C. apply built_back in K. destruct (composed_back _ _ _ C) as [(_ & _ & C')|(_ & -> & _)]; [exact (iq_assoc _ _ Q _ _ _ K C')|].
      apply built_spec in K. pose proof BL as BL'. apply built_spec in BL'. congruence.
    - intros p a b C O (c & l & r & u & fv & bv & red & L & S). destruct (composed_back _ _ _ C) as [(Lp & Np & C')|(_ & -> & _)].
      + destruct (part_lt _ _ _ C') as [_ Lb].
        assert (O' : built_in s a CReduction \/ exists u, In (u, b) V).
        { destruct O as [O|(u' & O)]; [left; apply built_back, O|right; exists u'; exact (told_known _ _ O Lb)]. }
        destruct (iq_patterns _ _ Q _ _ _ C' O') as [Ea Eb]; [|split; apply elementary_forth; assumption].
        apply (proj2 (free_spec s p)). exists l, r, u, fv, bv, red. rewrite <- (old _ Lp Np). unfold spec_at. rewrite L, S. reflexivity.
      + split; [left; exists CLabel; apply built_forth, BL|]. destruct O as [O|(u' & O)].
        * apply built_back, built_spec in O. pose proof BL as BL'. apply built_spec in BL'. congruence.
        * destruct (told_symbol _ _ O) as (_ & _ & [K|K] & _); [right|left]; exact K.
  Qed.
  Lemma mentions_back p k : mentions s' p k -> lt p n0 -> mentions s p k /\ lt k n0.
  Proof.
    assert (OC : forall p l r, composed s' p l r -> lt p n0 -> composed s p l r /\ lt l n0 /\ lt r n0).
    { intros q l r C L. destruct (composed_back _ _ _ C) as [(_ & _ & C')|(L' & _)]; [|lia]. split; [exact C'|exact (part_lt _ _ _ C')]. }
    induction 1 as [p l r C|p l r C|p l r k C M IH|p l r k C M IH]; intros L; destruct (OC _ _ _ C L) as (C' & Ll & Lr).
    - split; [exact (MentionsLeft _ _ _ _ C')|exact Ll].
    - split; [exact (MentionsRight _ _ _ _ C')|exact Lr].
    - destruct (IH Ll) as [M' Lk]. split; [exact (MentionsInLeft _ _ _ _ _ C' M')|exact Lk].
    - destruct (IH Lr) as [M' Lk]. split; [exact (MentionsInRight _ _ _ _ _ C' M')|exact Lk].
  Qed.
  Lemma told_phrasing : phrasing s V -> phrasing s' ((w, x) :: (v, y) :: V).
  Proof.
    intros Q. split.
    - destruct (ph_assoc _ _ Q) as (n & J & K). exists n. split; [right; right; exact J|apply built_forth, K].
    - intros u k cc J K. apply built_back in K. exact (ph_names _ _ Q _ _ _ (told_known _ _ J (spec_lt _ _ _ (proj1 (built_spec _ _ _) K))) K).
    - intros u k p J K M P. destruct (Nat.lt_ge_cases p n0) as [L|L]; [|exact (fresh_plain _ L P)].
      destruct (mentions_back _ _ M L) as [M' Lk]. pose proof (told_known _ _ J Lk) as J'.
      apply (ph_patterns _ _ Q _ _ _ J' K M').
      apply (proj1 (free_spec s' p)) in P. apply (proj2 (free_spec s p)). destruct P as (l & r & t & fv & bv & red & E).
      exists l, r, t, fv, bv, red. rewrite <- old; [exact E|exact L|]. intros ->. rewrite HX', x_leaf in E. discriminate.
    - intros u k t l p J1 J2 K1 K2 C. destruct (composed_back _ _ _ C) as [(_ & _ & C')|(_ & -> & _)].
      + destruct (part_lt _ _ _ C') as [L1 L2]. pose proof (told_known _ _ J1 L1) as J1'. pose proof (told_known _ _ J2 L2) as J2'.
        exact (ph_apart _ _ Q _ _ _ _ _ J1' J2' K1 K2 C').
      + pose proof (told_known _ _ J1 (spec_lt _ _ _ (proj1 (built_spec _ _ _) BL))) as J1'. destruct (ph_names _ _ Q _ _ _ J1' BL) as [E|R]; [discriminate|exact (K1 R)].
  Qed.
  Lemma told_uninvolved : uninvolved s V -> uninvolved s' ((w, x) :: (v, y) :: V).
  Proof.
    intros Q u k p J K M P. destruct (Nat.lt_ge_cases p n0) as [L|L]; [|exact (fresh_plain _ L P)].
    destruct (mentions_back _ _ M L) as [M' Lk]. pose proof (told_known _ _ J Lk) as J'.
    apply (Q _ _ p J'); [destruct K as [K|K]; [left; exact K|right; apply built_back, K]|exact M'|].
    apply (proj1 (free_spec s' p)) in P. apply (proj2 (free_spec s p)). destruct P as (l & r & t & fv & bv & red & E).
    exists l, r, t, fv, bv, red. rewrite <- old; [exact E|exact L|]. intros ->. rewrite HX', x_leaf in E. discriminate.
  Qed.
  Lemma told_unbracketed : unbracketed s V -> unbracketed s' ((w, x) :: (v, y) :: V).
  Proof.
    intros Q. split.
    - intros k K. apply built_back in K. destruct (ub_arrow _ _ Q _ K) as (p & comp & z & Bp & C & O). exists p, comp, z.
      split; [apply built_forth, Bp|]. split; [apply composed_forth, C|]. destruct O as [O|(q & O)]; [left; exact O|right; exists q; apply composed_forth, O].
    - intros u k J K (p & comp & z & Bp & C & O). apply built_back in Bp.
      destruct (composed_back _ _ _ C) as [(Lc & _ & C')|(_ & -> & _)].
      2:{ pose proof BL as BL'. apply built_spec in BL', Bp. congruence. }
      assert (Z : lt k n0 /\ (k = z \/ exists q, composed s q k comp)).
      { destruct O as [->|(q & O)]; [split; [apply (part_lt _ _ _ C')|left; reflexivity]|].
        destruct (composed_back _ _ _ O) as [(_ & _ & O')|(_ & _ & L)]; [|lia]. split; [apply (part_lt _ _ _ O')|right; exists q; exact O']. }
      destruct Z as [Lk Z]. apply (ub_plain _ _ Q _ _ (told_known _ _ J Lk) K). exists p, comp, z. auto.
  Qed.
End Told.

(** ** A declaration that is forgotten *)
Section Forgot.
  Variables (s s' : snapshot) (x y : nat) (kx : composition nat).
  Variables (V : list (text * nat)) (B B' : list (text * text)) (w : text).
  Hypothesis LR : reductions_are_listed s.
  Hypothesis ONE : forall k t u, carries_label s k t -> carries_label s k u -> t = u.
  Hypothesis HX : spec_at s x = Some (Abstract kx (Some y)).
  Hypothesis HX' : spec_at s' x = Some (Abstract kx None).
  Hypothesis HS : forall i, i <> x -> spec_at s' i = spec_at s i.
  Hypothesis HF : forall q p, In p (from_at s' q) <-> In p (from_at s q) /\ ~ (q = y /\ p = x).
  Hypothesis HM : forall u, aget text_eqb u (string_map s') = aget text_eqb u (string_map s).
  Hypothesis NB : notebook s V B.
  Hypothesis Jx : In (w, x) V.
  Hypothesis HB : forall p, In p B' <-> In p B /\ fst p <> w.

  Lemma forgot_leaf : kx = Leaf Constant.
  Proof. destruct (known_symbol s V B NB _ _ Jx) as [(red & E)|(cc & E)]; congruence. Qed.
  Lemma forgot_composed i a b : composed s' i a b <-> composed s i a b.
  Proof.
    rewrite !composed_spec. destruct (Nat.eq_dec i x) as [->|N]; [|rewrite (HS _ N); tauto].
    rewrite HX, HX', forgot_leaf. split; intros (fv & bv & red & E); discriminate.
  Qed.
  Lemma forgot_built i cc : built_in s' i cc <-> built_in s i cc.
  Proof. rewrite !built_spec. destruct (Nat.eq_dec i x) as [->|N]; [rewrite HX, HX'; split; discriminate|rewrite (HS _ N); tauto]. Qed.
  Lemma forgot_text i t : has_text s' i t <-> has_text s i t.
  Proof. rewrite !text_spec. destruct (Nat.eq_dec i x) as [->|N]; [rewrite HX, HX'; split; discriminate|rewrite (HS _ N); tauto]. Qed.
  Lemma forgot_variable i ch : leaf_variable s' i ch <-> leaf_variable s i ch.
  Proof.
    rewrite !leaf_spec. destruct (Nat.eq_dec i x) as [->|N]; [|rewrite (HS _ N); tauto].
    rewrite HX, HX'. split; intros (red & [= ->]); eauto.
  Qed.
  Lemma forgot_reduces i q : reduces s' i q <-> reduces s i q /\ i <> x.
  Proof.
    rewrite !reduces_spec. destruct (Nat.eq_dec i x) as [->|N]; [|rewrite (HS _ N); tauto].
    rewrite HX'. split; [intros (k & E); discriminate|tauto].
  Qed.
  Lemma forgot_lists q p : lists_reduction_from s' q p <-> lists_reduction_from s q p /\ ~ (q = y /\ p = x).
  Proof. rewrite !from_at_spec. apply HF. Qed.
  Lemma entry_kind k : (exists u, In (u, k) V) -> leaf_variable s k Constant \/ exists cc, built_in s k cc.
  Proof. intros (u & J). apply (nb_symbol _ _ _ NB _ _ J). Qed.
  Lemma built_fixed k cc q : built_in s k cc -> ~ reduces s k q.
  Proof. intros K R. apply built_spec in K. apply reduces_spec in R. destruct R as (kk & R). congruence. Qed.
  Lemma forgot_carries_back k t : carries_label s' k t -> carries_label s k t.
  Proof.
    intros (l & comp & str & Bl & C & R & T). exists l, comp, str. split; [apply forgot_built, Bl|]. split; [apply forgot_composed, C|].
    split; [|apply forgot_text, T]. clear C T. induction R as [a b H|a b d _ IH1 _ IH2]; [|eapply t_trans; eassumption]. apply t_step, forgot_reduces, H.
  Qed.
  Lemma forgot_carries_forth k t : carries_label s k t -> carries_label s' k t.
  Proof.
    intros (l & comp & str & Bl & C & R & T). exists l, comp, str. split; [apply forgot_built, Bl|]. split; [apply forgot_composed, C|].
    split; [|apply forgot_text, T]. clear T. apply clos_trans_t1n in R.
    assert (Q : (exists u, In (u, comp) V) -> exists cc, built_in s comp cc).
    { intros E. apply entry_kind in E. destruct E as [E|E]; [|exact E]. apply leaf_spec in E. apply composed_spec in C. destruct E as (red & E), C as (fv & bv & rd & C). congruence. }
    clear C. revert Q. induction R as [i q H|i j q H _ IH]; intros Q.
    all: assert (Ne : ~ exists u, In (u, i) V) by (intros E; destruct (Q E) as (cc & K); exact (built_fixed _ _ _ K H)).
    all: assert (H' : reduces s' i _) by (apply forgot_reduces; split; [exact H|intros ->; eauto]).
    - apply t_step, H'.
    - eapply t_trans; [apply t_step, H'|]. apply IH. intros E. destruct (entry_kind _ E) as [K|K]; [|exact K].
      destruct E as (u & J). destruct (Ne (nb_from _ _ _ NB _ _ _ J K (LR _ _ H))).
  Qed.
  Lemma listed_entry q p : clos_trans_1n nat (lists_reduction_from s) q p -> (exists u, In (u, q) V) -> leaf_variable s q Constant -> exists u, In (u, p) V.
  Proof.
    induction 1 as [q p H|q r p H _ IH]; intros (u & J) K; pose proof (nb_from _ _ _ NB _ _ _ J K H) as E; [exact E|].
    apply IH; [exact E|]. destruct (entry_kind _ E) as [K'|(cc & K')]; [exact K'|]. destruct E as (v & Jv).
    destruct (built_fixed _ _ _ K' (nb_listed _ _ _ NB _ _ _ Jv H)).
  Qed.
  Lemma forgot_found_back u n : found_under s' u n -> found_under s u n.
  Proof.
    intros (str & comp & l & A & PT & C & Bl). exists str, comp, l. rewrite HM in A. split; [exact A|]. split; [|split; [apply forgot_composed, C|apply forgot_built, Bl]].
    clear A C. induction PT as [a b H|a b d _ IH1 _ IH2]; [|eapply t_trans; eassumption]. apply t_step, forgot_lists, H.
  Qed.
  Lemma forgot_found_forth u n : found_under s u n -> found_under s' u n.
  Proof.
    intros (str & comp & l & A & PT & C & Bl). exists str, comp, l. rewrite HM. split; [exact A|]. split; [|split; [apply forgot_composed, C|apply forgot_built, Bl]].
    assert (NE : ~ exists u, In (u, comp) V).
    { intros E. apply composed_spec in C. destruct C as (fv & bv & red & C).
      destruct (entry_kind _ E) as [K|(cc & K)]; [apply leaf_spec in K; destruct K as (rd & K)|apply built_spec in K]; congruence. }
    clear A C. apply clos_trans_t1n in PT.
    assert (Kx : leaf_variable s x Constant) by (apply leaf_spec; exists (Some y); rewrite HX, forgot_leaf; reflexivity).
    induction PT as [q p H|q r p H PT IH].
    - apply t_step, forgot_lists. split; [exact H|]. intros [_ ->]. apply NE. eauto.
    - eapply t_trans; [apply t_step, forgot_lists; split; [exact H|]|exact (IH NE)]. intros [_ ->]. apply NE. exact (listed_entry _ _ PT (ex_intro _ w Jx) Kx).
  Qed.
  Lemma forgot_goes_by n t : goes_by s' n t -> goes_by s n t.
  Proof.
    induction 1 as [n t C|n m t N Rd _ IH]; [apply GoesByLabel, forgot_carries_back, C|]. apply forgot_reduces in Rd.
    apply (GoesByReduction s n m t); [|apply Rd|exact IH]. intros l comp Bl C. apply (N l comp); [apply forgot_built, Bl|apply forgot_composed, C].
  Qed.
  Lemma forgot_indefinite n : indefinite s' n -> indefinite s n.
  Proof.
    intros [K|[K|[K|(t & G & T)]]].
    - left. apply forgot_variable, K.
    - right. left. apply forgot_variable, K.
    - right. right. left. apply free_spec in K. apply free_spec. destruct K as (l & r & v' & fv & bv & red & E).
      exists l, r, v', fv, bv, red. rewrite <- HS; [exact E|]. intros ->. rewrite HX', forgot_leaf in E. discriminate.
    - right. right. right. exists t. split; [exact (forgot_goes_by _ _ G)|exact T].
  Qed.
  Lemma forgot_same b b' : same_or_reducing s' b b' -> same_or_reducing s b b'.
  Proof. intros [->|H]; [left; reflexivity|right; apply forgot_lists, H]. Qed.
  Lemma forgot_says hs n : may_say s' hs n -> may_say s hs n.
  Proof.
    induction 1 as [n|hs n K|h hs n a b b' C I Sb M IH]; [apply SaysAny|apply SaysVariable, forgot_variable, K|].
    apply (SaysPair s h hs n a b b'); [apply forgot_composed, C| |exact (forgot_same _ _ Sb)|exact IH]. destruct I as [I|I]; [left; exact I|right; exact (forgot_indefinite _ I)].
  Qed.
  Lemma forgot_symbol u k : In (u, k) V -> symbol s' u k.
  Proof.
    intros J. destruct (nb_symbol _ _ _ NB _ _ J) as ((W & U & K & Q) & C & Kd & NC). split; [|split; [exact (forgot_carries_forth _ _ C)|split]].
    - split; [exact W|]. split; [exact U|]. split; [exact (forgot_found_forth _ _ K)|]. intros m H. exact (Q _ (forgot_found_back _ _ H)).
    - destruct Kd as [Kd|(cc & Kd)]; [left; apply forgot_variable, Kd|right; exists cc; apply forgot_built, Kd].
    - intros op p Bo Cp. apply (NC op p); [destruct Bo as [Bo|Bo]; apply forgot_built in Bo; auto|apply forgot_composed, Cp].
  Qed.
  Theorem forgot_notebook : notebook s' V B'.
  Proof.
    split.
    - intros k tr imp red z cond q q' Bt Bi Br Sz C Sq M. apply forgot_built in Bt, Bi, Br. apply forgot_composed in C.
      exact (nb_unruled _ _ _ NB k _ _ _ _ _ _ _ Bt Bi Br (forgot_same _ _ Sz) C (forgot_same _ _ Sq) (forgot_says _ _ M)).
    - intros n t H G. apply (nb_operators _ _ _ NB n t); [destruct H as [H|H]; apply forgot_built in H; auto|exact (forgot_goes_by _ _ G)].
    - destruct (nb_let _ _ _ NB) as (n & J & K). exists n. split; [exact J|apply forgot_built, K].
    - destruct (nb_arrow _ _ _ NB) as (n & J & K). exists n. split; [exact J|apply forgot_built, K].
    - destruct (nb_forget _ _ _ NB) as (n & J & K & NC). exists n. split; [exact J|]. split; [apply forgot_built, K|]. intros p r C. apply (NC p r), forgot_composed, C.
    - exact forgot_symbol.
    - intros u v J. apply HB in J. destruct J as [J N]. destruct (nb_book _ _ _ NB _ _ J) as (k & l & J1 & J2 & Rd). exists k, l. split; [exact J1|]. split; [exact J2|].
      apply forgot_reduces. split; [exact Rd|]. intros ->. apply N. destruct (nb_symbol _ _ _ NB _ _ J1) as (_ & C & _), (nb_symbol _ _ _ NB _ _ Jx) as (_ & C' & _). exact (ONE _ _ _ C C').
    - intros u k q J Rd. apply forgot_reduces in Rd. destruct Rd as [Rd N]. destruct (nb_only _ _ _ NB _ _ _ J Rd) as (v & J1 & J2). exists v. split; [|exact J2].
      apply HB. split; [exact J1|]. cbn. intros ->. apply N. destruct (nb_symbol _ _ _ NB _ _ J) as ((_ & _ & K & _) & _), (nb_symbol _ _ _ NB _ _ Jx) as ((_ & _ & _ & Q) & _). exact (Q _ K).
    - intros u k q J H. apply forgot_lists in H. destruct H as [H N]. pose proof (nb_listed _ _ _ NB _ _ _ J H) as Rd. apply forgot_reduces. split; [exact Rd|].
      intros ->. apply N. split; [|reflexivity]. apply reduces_spec in Rd. destruct Rd as (kk & Rd). congruence.
    - intros u q p J K H. apply forgot_lists in H. apply forgot_variable in K. exact (nb_from _ _ _ NB _ _ _ J K (proj1 H)).
  Qed.
  Lemma forgot_inquiry : inquiry s V -> inquiry s' V.
  Proof.
    intros Q. split.
    - intros u cc J. destruct (iq_words _ _ Q _ _ J) as (n & J' & K). exists n. split; [exact J'|apply forgot_built, K].
    - intros a p r K C. apply forgot_built in K. apply forgot_composed in C. exact (iq_assoc _ _ Q _ _ _ K C).
    - intros p a b C O P. apply forgot_composed in C.
      assert (EL : forall k, elementary s k -> elementary s' k).
      { intros k [(cc & K)|K]; [left; exists cc; apply forgot_built, K|right; apply forgot_variable, K]. }
      destruct (iq_patterns _ _ Q _ _ _ C) as [Ea Eb]; [destruct O as [O|O]; [left; apply forgot_built, O|right; exact O]| |split; apply EL; assumption].
      apply free_spec in P. apply (proj2 (free_spec s p)). destruct P as (l & r & u & fv & bv & red & E). exists l, r, u, fv, bv, red.
      rewrite <- HS; [exact E|]. intros ->. rewrite HX', forgot_leaf in E. discriminate.
  Qed.
  Lemma forgot_mentions p k : mentions s' p k -> mentions s p k.
  Proof.
    induction 1 as [p l r C|p l r C|p l r k C M IH|p l r k C M IH]; apply forgot_composed in C;
      [exact (MentionsLeft _ _ _ _ C)|exact (MentionsRight _ _ _ _ C)|exact (MentionsInLeft _ _ _ _ _ C IH)|exact (MentionsInRight _ _ _ _ _ C IH)].
  Qed.
  Lemma forgot_phrasing : phrasing s V -> phrasing s' V.
  Proof.
    intros Q. split.
    - destruct (ph_assoc _ _ Q) as (n & J & K). exists n. split; [exact J|apply forgot_built, K].
    - intros u k cc J K. apply forgot_built in K. exact (ph_names _ _ Q _ _ _ J K).
    - intros u k p J K M P. apply (ph_patterns _ _ Q _ _ _ J K (forgot_mentions _ _ M)).
      apply free_spec in P. apply (proj2 (free_spec s p)). destruct P as (l & r & t & fv & bv & red & E). exists l, r, t, fv, bv, red.
      rewrite <- HS; [exact E|]. intros ->. rewrite HX', forgot_leaf in E. discriminate.
    - intros u k t l p J1 J2 K1 K2 C. apply forgot_composed in C. exact (ph_apart _ _ Q _ _ _ _ _ J1 J2 K1 K2 C).
  Qed.
  Lemma forgot_uninvolved : uninvolved s V -> uninvolved s' V.
  Proof.
    intros Q u k p J K M P. apply (Q _ _ p J); [destruct K as [K|K]; [left; exact K|right; apply forgot_built, K]|exact (forgot_mentions _ _ M)|].
    apply free_spec in P. apply (proj2 (free_spec s p)). destruct P as (l & r & t & fv & bv & red & E). exists l, r, t, fv, bv, red.
    rewrite <- HS; [exact E|]. intros ->. rewrite HX', forgot_leaf in E. discriminate.
  Qed.
  Lemma forgot_ranked k : ranked s' k <-> ranked s k.
  Proof.
    split; intros (p & comp & z & Bp & C & O); exists p, comp, z; (split; [apply forgot_built, Bp|]); (split; [apply forgot_composed, C|]);
      (destruct O as [O|(q & O)]; [left; exact O|right; exists q; apply forgot_composed, O]).
  Qed.
  Lemma forgot_unbracketed : unbracketed s V -> unbracketed s' V.
  Proof.
    intros Q. split.
    - intros k K. apply forgot_built in K. apply forgot_ranked, (ub_arrow _ _ Q _ K).
    - intros u k J K H. apply forgot_ranked in H. exact (ub_plain _ _ Q _ _ J K H).
  Qed.
End Forgot.
