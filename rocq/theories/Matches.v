(** Which examples of a pattern the evaluator finds, and what stands for the variables in them. *)
From Verif Require Import Snapshot Search StoreFacts MapFacts AstSpec AstFacts SearchKeeps SearchCaches Questions Existence.
From Coq Require Import List PeanoNat.
Import ListNotations.
Local Open Scope zia_scope.

(** ** Specification *)
(** [u] is [t] with the outermost parts whose concepts are assigned replaced; the pairs around them are
    put together again, whatever text and concept they get. *)
Inductive rebuilt (ex : list (cid * tree)) : tree -> tree -> Prop :=
| RebuiltHere t c u : t_concept t = Some c -> maps_to ex c u -> rebuilt ex t u
| RebuiltLeaf s c k : (forall d, c = Some d -> ~ In d (map fst ex)) -> rebuilt ex (TLeaf s c k) (TLeaf s c k)
| RebuiltPair s c l r fv bv l' r' u :
    (forall d, c = Some d -> ~ In d (map fst ex)) -> rebuilt ex l l' -> rebuilt ex r r' ->
    t_exp u = Some (l', r') -> rebuilt ex (TBranch s c l r fv bv) u.
(** The concept that is found for the pair of [l] and [r], if there is one. *)
Definition pair_concept cfg snap (e : env) (l r : tree) (c : option cid) : Prop :=
  match t_concept l, t_concept r with
  | Some a, Some b => exists m, known cfg snap e a m /\ c = m_find_as_hand m b HLeft
  | _, _ => c = None
  end.
(** As [rebuilt]; the pairs that are put together again get the concepts that are found for them. *)
Inductive remade cfg snap (e : env) (ex : list (cid * tree)) : tree -> tree -> Prop :=
| RemadeHere t c u : t_concept t = Some c -> maps_to ex c u -> remade cfg snap e ex t u
| RemadeLeaf s c k : (forall d, c = Some d -> ~ In d (map fst ex)) -> remade cfg snap e ex (TLeaf s c k) (TLeaf s c k)
| RemadePair s c l r fv bv l' r' u :
    (forall d, c = Some d -> ~ In d (map fst ex)) -> remade cfg snap e ex l l' -> remade cfg snap e ex r r' ->
    t_exp u = Some (l', r') -> pair_concept cfg snap e l' r' (t_concept u) ->
    remade cfg snap e ex (TBranch s c l r fv bv) u.
(** [u] is [t] with what the example [x] says put in. *)
Definition put_in cfg snap (e : env) (x : ex_subs) (t u : tree) : Prop :=
  exists v, replaced (es_gen x) t v /\ remade cfg snap e (es_ex x) v u.
(** [m] says what [a] and [b] say. *)
Definition together {K} (a b m : list (K * tree)) : Prop :=
  (forall k v, maps_to m k v -> maps_to a k v \/ maps_to b k v) /\
  (forall k v, maps_to a k v -> exists w, maps_to m k w /\ same_expr w v) /\
  (forall k v, maps_to b k v -> exists w, maps_to m k w /\ same_expr w v).
Definition both_say (a b m : ex_subs) : Prop :=
  together (es_gen a) (es_gen b) (es_gen m) /\ together (es_ex a) (es_ex b) (es_ex m).
(** [p] is the side [h] of [g] and [v] is the other side. *)
Definition sides (h : hand) (g p v : tree) : Prop :=
  t_exp g = Some (match h with HLeft => (p, v) | HRight => (v, p) end).

Section Matches.
  Variables (cfg : config) (snap : snapshot) (rf : nat).
  (** The states that a search may be in. *)
  Variable J : sstate -> Prop.
  Notation ops n := (search cfg snap rf n).
  Definition halves (e : env) (h : hand) (c a b : cid) : Prop :=
    match h with HLeft => composed_of cfg snap e c a b | HRight => composed_of cfg snap e c b a end.
  Definition shown_in (e : env) (c : cid) (t : tree) : Prop :=
    exists n s s', J s /\ o_to_ast (ops n) e c s = Ok (t, s').
  Definition evaluated (e : env) (t : tree) (c : cid) : Prop :=
    exists n s nf why s', J s /\ recursively_reduce (ops n) e t s = Ok ((nf, why), s') /\ t_concept nf = Some c.

  (** [matches e g c x]: the concept [c] is an example of the pattern [g] in which [x] stands for the
      variables.  As in [fits]: a single symbol is matched by anything; if the variable occurs on one
      side only, the other side is the concept of the other part of [c], or that part is a free variable
      and stands for the other side; if it occurs on both sides, the right side is completed with what
      the left example says before it is matched or evaluated. *)
  Inductive matches (e : env) : tree -> cid -> ex_subs -> Prop :=
  | MatchesSymbol g c t : t_exp g = None -> shown_in e c t -> matches e g c (ES [(t_key g, t)] [])
  | MatchesSide h g p v c a b b' x :
      sides h g p v -> ~ open_in cfg snap e p -> open_in cfg snap e v -> halves e h c a b ->
      t_concept p = Some a -> stands_for cfg snap e b b' -> matches e v b' x -> matches e g c x
  | MatchesShown h g p v c a b t x :
      sides h g p v -> ~ open_in cfg snap e p -> open_in cfg snap e v -> halves e h c a b ->
      t_concept p = Some a -> shown_in e b t -> instance (es_gen x) (es_ex x) t v -> matches e g c x
  | MatchesFree h g p v c a b x y :
      sides h g p v -> ~ open_in cfg snap e p -> open_in cfg snap e v -> halves e h c a b ->
      is_free cfg snap e a -> matches e v b x -> both_say x (ES [] [(a, p)]) y -> matches e g c y
  | MatchesBoth g l r c a b a' b' x r' y z :
      t_exp g = Some (l, r) -> open_in cfg snap e l -> open_in cfg snap e r -> composed_of cfg snap e c a b ->
      stands_for cfg snap e a a' -> matches e l a' x -> put_in cfg snap e x r r' -> stands_for cfg snap e b b' ->
      open_in cfg snap e r' -> matches e r' b' y -> both_say y x z -> matches e g c z
  | MatchesEvaluated g l r c a b a' b' x r' :
      t_exp g = Some (l, r) -> open_in cfg snap e l -> open_in cfg snap e r -> composed_of cfg snap e c a b ->
      stands_for cfg snap e a a' -> matches e l a' x -> put_in cfg snap e x r r' -> stands_for cfg snap e b b' ->
      ~ open_in cfg snap e r' -> evaluated e r' b' -> matches e g c x.
End Matches.

(** ** Proofs *)
Lemma replaced_by_keys subs t : replaced subs t (subst_keys t subs).
Proof.
  induction t as [s c k|s c l IHl r IHr fv bv]; cbn [subst_keys];
    (destruct (aget key_eqb _ subs) as [u|] eqn:A;
     [apply ReplacedHere, (aget_in key_eqb key_eqb_spec _ _ _ A)|]).
  - apply ReplacedLeaf. intros H. unfold mapped in H. cbn in H, A.
    apply (aget_None key_eqb key_eqb_spec) in A. apply A, H.
  - apply ReplacedBelow; [|exact IHl|exact IHr]. intros H. unfold mapped in H. cbn in H, A.
    apply (aget_None key_eqb key_eqb_spec) in A. apply A, H.
Qed.
Section Merging.
  Context {K : Type} (eqb : K -> K -> bool) (spec : forall a b, Bool.reflect (a = b) (eqb a b)).
  Lemma merge_into_together small : forall large m, merge_into eqb small large = Some m -> together small large m.
  Proof.
    induction small as [|[k v] small IH]; intros large m E; cbn [merge_into] in E.
    - injection E as <-. repeat split; [auto| |]; intros k v H; [destruct H|]. exists v. split; [exact H|split; reflexivity].
    - destruct (aget eqb k large) as [w|] eqn:A.
      + destruct (key_eqb_spec (t_key w) (t_key v)) as [Q|]; [|discriminate]. apply IH in E. destruct E as (E1 & E2 & E3).
        split; [|split; [|exact E3]].
        * intros k' v' H. apply E1 in H. destruct H; [left; right|right]; assumption.
        * intros k' v' [[= <- <-]|H]; [|apply E2, H]. apply (aget_in eqb spec) in A. apply E3 in A.
          destruct A as (w' & M & Sx & Sc). exists w'. split; [exact M|]. unfold t_key in Q. injection Q as Q1 Q2.
          split; congruence.
      + apply IH in E. destruct E as (E1 & E2 & E3). split; [|split].
        * intros k' v' H. apply E1 in H. destruct H as [H|H]; [left; right; exact H|].
          apply (in_aset eqb spec) in H. destruct H as [[-> ->]|H]; [left; left; reflexivity|right; exact H].
        * intros k' v' [[= <- <-]|H]; [|apply E2, H]. apply E3. apply (aset_in eqb).
        * intros k' v' H. apply E3. apply (aset_keeps eqb spec); [exact H|]. intros ->.
          apply (aget_None eqb spec) in A. apply A. apply in_map_iff. exists (k, v'). auto.
  Qed.
  Lemma together_sym (a b m : list (K * tree)) : together a b m -> together b a m.
  Proof. intros (A & B & C). split; [|split; assumption]. intros k v H. apply A in H. tauto. Qed.
  Lemma merge_together a b m : consistent_merge eqb a b = Some m -> together a b m.
  Proof.
    unfold consistent_merge. destruct (Nat.ltb _ _); intros E; apply merge_into_together in E; [apply together_sym|]; exact E.
  Qed.
End Merging.
Lemma merged_says a b m : es_merge a b = Some m -> both_say a b m.
Proof.
  unfold es_merge. destruct (consistent_merge key_eqb _ _) eqn:A; [|discriminate].
  destruct (consistent_merge cid_eqb _ _) eqn:B; [|discriminate]. intros [= <-]. split; cbn [es_gen es_ex].
  - exact (merge_together key_eqb key_eqb_spec _ _ _ A).
  - exact (merge_together cid_eqb cid_eqb_spec _ _ _ B).
Qed.

Section Found.
  Variables (cfg : config) (snap : snapshot) (rf : nat) (J : sstate -> Prop)
    (I : sstate -> sstate -> Prop) (P P1 : env -> Prop) (Hd : nat -> Prop).
  Hypothesis L : cache_laws cfg snap rf J I P P1 Hd.
  Notation ops n := (search cfg snap rf n).
  Notation kp := (kp J I).
  Notation matches := (matches cfg snap rf J).
  Lemma kept {A} (m : SM A) s a s' : kp m -> J s -> m s = Ok (a, s') -> J s'.
  Proof. intros K H E. exact (proj1 (K _ _ _ H E)). Qed.
  Lemma find_map_from {A B} (f : A -> SM (option B)) l : (forall a, kp (f a)) -> forall s b s',
    J s -> find_map f l s = Ok (Some b, s') -> exists a s1 s2, In a l /\ J s1 /\ f a s1 = Ok (Some b, s2).
  Proof.
    intros K. induction l as [|a l IH]; intros s b s' H E; [discriminate|]. cbn [find_map] in E.
    apply or_some in E. destruct E as [E|(s1 & E1 & E)].
    - exists a, s, s'. split; [left; reflexivity|auto].
    - destruct (IH s1 b s' (kept _ _ _ _ (K a) H E1) E) as (a' & s2 & s3 & X & Y). exists a', s2, s3. split; [right; exact X|exact Y].
  Qed.
  Lemma single_kp {A B} (f : A -> SM (option B)) a : kp (find_map f [a]) -> kp (f a).
  Proof.
    intros K s b s' H E. apply (K s b s' H). cbn [find_map]. unfold or_else, sbind. rewrite E. cbn [obind].
    destruct b; reflexivity.
  Qed.
  Lemma contract_exp n e l r s u s' : contract_pair cfg snap rf (ops n) e l r s = Ok (u, s') -> t_exp u = Some (l, r).
  Proof.
    unfold contract_pair. intros E. apply sb in E. destruct E as (c & s1 & _ & E).
    apply sb in E. destruct E as (t & s2 & _ & E). injection E as <- _. unfold bind_pair, branch.
    destruct (pair_vars l r). reflexivity.
  Qed.
  Lemma bound_concept (e : env) (t : tree) c u :
    bind_concept_to_syntax cfg snap (e_delta e) t c = Ok u -> t_concept u = Some c.
  Proof.
    unfold bind_concept_to_syntax. intros E. apply obind_ok in E. destruct E as (ty & _ & E). destruct (opt_cct_eqb ty _).
    - unfold bind_quantifier in E. destruct t; apply obind_ok in E; destruct E as (y & _ & E); injection E as <-; reflexivity.
    - injection E as <-. destruct t; reflexivity.
  Qed.
  Lemma contract_concept n e l r s u s' : contract_pair cfg snap rf (ops n) e l r s = Ok (u, s') -> pair_concept cfg snap e l r (t_concept u).
  Proof.
    unfold contract_pair. intros E. apply sb in E. destruct E as (c & s1 & C & E).
    apply sb in E. destruct E as (t & s2 & Et & E).
    assert (t_concept u = t_concept t) as ->.
    { injection E as <- _. unfold bind_pair, branch. destruct (pair_vars l r). reflexivity. }
    assert (t_concept t = c) as ->.
    { destruct c as [c|].
      - apply sb in Et. destruct Et as (lb & s3 & _ & Et). apply sb in Et. destruct Et as (y & s4 & _ & Et).
        unfold slift in Et. apply obind_ok in Et. destruct Et as (w & Ew & Et). injection Et as <- _. exact (bound_concept _ _ _ _ Ew).
      - unfold smap in Et. apply sb in Et. destruct Et as (y & s3 & _ & Et). injection Et as <- _. reflexivity. }
    unfold pair_concept. unfold composition_concept in C. destruct (t_concept l) as [a|]; [|now injection C].
    destruct (t_concept r) as [b|]; [|now injection C]. apply sb in C. destruct C as (m & s3 & R & C). apply read_ok in R.
    injection C as <- _. exists m. split; [apply R|reflexivity].
  Qed.
  Lemma remade_rebuilt e ex t u : remade cfg snap e ex t u -> rebuilt ex t u.
  Proof.
    induction 1 as [t c u T M|s c k H|s c l r fv bv l' r' u H _ IHl _ IHr X _];
      [exact (RebuiltHere ex t c u T M)|exact (RebuiltLeaf ex s c k H)|exact (RebuiltPair ex s c l r fv bv l' r' u H IHl IHr X)].
  Qed.
  Lemma substitute_remakes n e m t : forall s u s',
    substitute cfg snap rf (ops n) e t m s = Ok (u, s') -> remade cfg snap e m t u.
  Proof.
    induction t as [x c k|x c l IHl r IHr fv bv]; intros s u s' E; cbn [substitute t_concept] in E.
    - destruct c as [c|]; [destruct (aget cid_eqb c m) as [w|] eqn:A|].
      + injection E as <- _. apply RemadeHere with c; [reflexivity|]. apply (aget_in cid_eqb cid_eqb_spec _ _ _ A).
      + injection E as <- _. apply RemadeLeaf. intros d [= <-]. now apply (aget_None cid_eqb cid_eqb_spec).
      + injection E as <- _. apply RemadeLeaf. intros d [=].
    - assert (N : (match c with Some c => aget cid_eqb c m | None => None end) = None ->
        sbind (substitute cfg snap rf (ops n) e l m) (fun l' => sbind (substitute cfg snap rf (ops n) e r m) (fun r' =>
          contract_pair cfg snap rf (ops n) e l' r')) s = Ok (u, s') -> remade cfg snap e m (TBranch x c l r fv bv) u).
      { intros N X. apply sb in X. destruct X as (l' & s1 & X1 & X). apply sb in X. destruct X as (r' & s2 & X2 & X).
        eapply RemadePair; [|eapply IHl, X1|eapply IHr, X2|exact (contract_exp _ _ _ _ _ _ _ X)|exact (contract_concept _ _ _ _ _ _ _ X)].
        intros d ->. now apply (aget_None cid_eqb cid_eqb_spec). }
      destruct c as [c|]; [|apply N; [reflexivity|exact E]].
      destruct (aget cid_eqb c m) as [w|] eqn:A; [|apply N; [reflexivity|exact E]].
      injection E as <- _. apply RemadeHere with c; [reflexivity|]. apply (aget_in cid_eqb cid_eqb_spec _ _ _ A).
  Qed.
  Lemma substitute_rebuilds n e m t s u s' :
    substitute cfg snap rf (ops n) e t m s = Ok (u, s') -> rebuilt m t u.
  Proof. intros E. exact (remade_rebuilt _ _ _ _ (substitute_remakes _ _ _ _ _ _ _ E)). Qed.
  Lemma filled_puts n e x r s u s' :
    substitute cfg snap rf (ops n) e (subst_keys r (es_gen x)) (es_ex x) s = Ok (u, s') -> put_in cfg snap e x r u.
  Proof. intros E. exists (subst_keys r (es_gen x)). split; [apply replaced_by_keys|eapply substitute_remakes, E]. Qed.

  Definition matched (n : nat) : Prop := forall R e g eqs (k : ex_subs -> SM (option R)) s b s',
    P e -> J s -> (forall x, kp (k x)) -> o_examples (ops n) e g eqs k s = Ok (Some b, s') ->
    exists c x s1 s2, In c eqs /\ matches e g c x /\ J s1 /\ k x s1 = Ok (Some b, s2).
  Lemma one_matched n e g eqs s x s' : matched n -> P e -> J s ->
    find_example (ops n) e g eqs s = Ok (Some x, s') -> exists c, In c eqs /\ matches e g c x.
  Proof.
    intros M He H E. unfold find_example in E. apply M in E; [|exact He|exact H|intros; apply (kp_ret _ _ _ _ _ _ _ _ L)].
    destruct E as (c & y & s1 & s2 & X & Y & _ & [= -> _]). eauto.
  Qed.
  Ltac keep K H E := let H' := fresh H in assert (H' := kept _ _ _ _ K H E).
  Lemma half_matched n h e gen nongen eqs s x s' : matched n -> P e -> J s ->
    half_generalisation cfg snap (ops n) e gen nongen eqs h s = Ok (Some x, s') ->
    exists c a b, In c eqs /\ halves cfg snap e h c a b /\
      ((t_concept nongen = Some a /\ exists b', stands_for cfg snap e b b' /\ matches e gen b' x) \/
       (t_concept nongen = Some a /\ exists t, shown_in cfg snap rf J e b t /\ instance (es_gen x) (es_ex x) t gen) \/
       (is_free cfg snap e a /\ exists y, matches e gen b y /\ both_say y (ES [] [(a, nongen)]) x)).
  Proof.
    intros M He H E. pose proof (search_kp_up_to _ _ _ _ _ _ _ _ L n) as OB.
    pose proof (half_generalisation_kp _ _ _ _ _ _ _ _ L n OB e gen nongen) as HK.
    unfold half_generalisation in E. apply find_map_from in E; [|intros c; specialize (HK [c] h He)|exact H].
    2:{ unfold half_generalisation in HK. apply single_kp, HK. }
    destruct E as (c & s1 & s2 & X & H1 & E).
    apply sb in E. destruct E as (comp & s3 & C & E).
    pose proof (kept _ _ _ _ (composition_of_concept_kp _ _ _ _ _ _ _ _ L e c) H1 C) as H3.
    destruct comp as [[cl cr]|]; [|discriminate].
    apply composition_ok in C.
    assert (G : forall a b ex,
      (forall o, ex (Some o) = if cid_eqb a o then Some b else None) ->
      (if negb (option_eqb cid_eqb (Some a) (t_concept nongen)) then
         sbind (Search.read cfg snap e a) (fun m =>
         if m_free m then and_then (find_example (ops n) e gen [b]) (fun subs =>
                sret (es_merge subs (ES [] [(a, nongen)]))) else sret None)
       else or_else (find_example (ops n) e gen [b])
              (opt_then (t_concept nongen) (fun nongen_id =>
                 opt_then (ex (Some nongen_id)) (fun ex =>
                   sbind (o_to_ast (ops n) e ex) (fun ext =>
                   match check_example ext gen with
                   | Some s => sret (Some s)
                   | None =>
                     sbind (Search.read cfg snap e ex) (fun m =>
                     find_example (ops n) e gen (ex :: m_reduces_from cfg m))
                   end))))) s3 = Ok (Some x, s2) ->
      ((t_concept nongen = Some a /\ exists b', stands_for cfg snap e b b' /\ matches e gen b' x) \/
       (t_concept nongen = Some a /\ exists t, shown_in cfg snap rf J e b t /\ instance (es_gen x) (es_ex x) t gen) \/
       (is_free cfg snap e a /\ exists y, matches e gen b y /\ both_say y (ES [] [(a, nongen)]) x))).
    { clear E X C. intros a b ex Hex E.
      destruct (option_eqb cid_eqb (Some a) (t_concept nongen)) eqn:Q; cbn [negb] in E.
      - assert (T : t_concept nongen = Some a).
        { destruct (t_concept nongen) as [d|]; [|discriminate]. cbn in Q. destruct (cid_eqb_spec a d); congruence. }
        apply or_some in E. destruct E as [E|(s4 & E4 & E)].
        + left. split; [exact T|]. apply one_matched in E; try assumption. destruct E as (b' & [<-|[]] & E).
          exists b. split; [left; reflexivity|exact E].
        + pose proof (kept _ _ _ _ (find_example_kp _ _ _ _ _ _ _ _ L n OB e gen [b] He) H3 E4) as H4.
          rewrite T in E. cbn [opt_then] in E. rewrite Hex in E. destruct (cid_eqb_spec a a); [|congruence].
          cbn [opt_then] in E. apply sb in E. destruct E as (t & s5 & Et & E).
          pose proof (kept _ _ _ _ (kp_to_ast _ _ _ _ (OB n (le_n n)) e b He) H4 Et) as H5.
          destruct (check_example t gen) as [y|] eqn:Y.
          * injection E as -> _. right. left. split; [exact T|]. exists t. split; [exists n, s4, s5; auto|].
            apply check_example_sound, Y.
          * left. split; [exact T|]. apply sb in E. destruct E as (m & s6 & Rm & E).
            apply read_ok in Rm. destruct Rm as [Rm ->].
            apply one_matched in E; try assumption. destruct E as (b' & [<-|Y'] & E).
            -- exists b. split; [left; reflexivity|exact E].
            -- exists b'. split; [right; exists m; auto|exact E].
      - right. right. apply sb in E. destruct E as (m & s4 & Rm & E). apply read_ok in Rm. destruct Rm as [Rm ->].
        destruct (m_free m) eqn:Fm; [|discriminate]. split; [exists m; auto|]. apply at_some in E.
        destruct E as (y & s5 & E & [= E']). apply one_matched in E; try assumption. destruct E as (b' & [<-|[]] & E).
        exists y. split; [exact E|]. apply merged_says, E'. }
    destruct h.
    - exists c, cl, cr. split; [exact X|]. split; [exact C|].
      apply (G cl cr (fun o => match o with Some o => if cid_eqb cl o then Some cr else None | None => None end)); [reflexivity|exact E].
    - exists c, cr, cl. split; [exact X|]. split; [exact C|].
      apply (G cr cl (fun o => match o with Some o => if cid_eqb cr o then Some cl else None | None => None end)); [reflexivity|exact E].
  Qed.
  Lemma both_matched n e g l r c p q s5 x s6 : matched n -> P e -> J s5 -> t_exp g = Some (l, r) ->
    open_in cfg snap e l -> open_in cfg snap e r -> composed_of cfg snap e c p q ->
    example_of_both cfg snap rf (ops n) e l r p q s5 = Ok (Some x, s6) -> matches e g c x.
  Proof.
    intros M He H5 X Bl Br C E. pose proof (search_kp_up_to _ _ _ _ _ _ _ _ L n) as OB.
    unfold example_of_both in E. apply sb in E. destruct E as (eql & s7 & Q & E).
    pose proof (kept _ _ _ _ (equivalence_set_kp _ _ _ _ _ _ _ _ L e p) H5 Q) as H7.
    apply M in E; [|exact He|exact H7|].
    2:{ intros lex. apply (kp_bind _ _ _ _ _ _ _ _ L); [apply (substitute_kp _ _ _ _ _ _ _ _ L); assumption|intros r'].
        apply (kp_bind _ _ _ _ _ _ _ _ L); [apply (equivalence_set_kp _ _ _ _ _ _ _ _ L)|intros eqr].
        apply (kp_bind _ _ _ _ _ _ _ _ L); [apply (contains_bound_kp _ _ _ _ _ _ _ _ L)|intros bb].
        destruct bb; [eapply kp_examples; [apply OB; constructor|exact He|intros; apply (kp_ret _ _ _ _ _ _ _ _ L)]|].
        apply (kp_bind _ _ _ _ _ _ _ _ L); [apply (recursively_reduce_kp _ _ _ _ _ P); [exact OB|exact He]|intros [nf why]].
        apply (kp_ret _ _ _ _ _ _ _ _ L). }
    destruct E as (a' & lex & s8 & s9 & A & Ma & H8 & U). apply (equivalents _ _ _ _ _ _ _ Q) in A.
    apply sb in U. destruct U as (r' & s10 & S & U).
    pose proof (kept _ _ _ _ (substitute_kp _ _ _ _ _ _ _ _ L n OB e _ _ He) H8 S) as H10.
    apply filled_puts in S.
    apply sb in U. destruct U as (eqr & s11 & Q' & U).
    pose proof (kept _ _ _ _ (equivalence_set_kp _ _ _ _ _ _ _ _ L e q) H10 Q') as H11.
    apply sb in U. destruct U as (bb & s12 & B & U).
    pose proof (kept _ _ _ _ (contains_bound_kp _ _ _ _ _ _ _ _ L e r') H11 B) as H12.
    destruct bb.
    * apply opened_ok in B. apply M in U; [|exact He|exact H12|intros; apply (kp_ret _ _ _ _ _ _ _ _ L)].
      destruct U as (b' & rex & s13 & s14 & Y & Mb & _ & [= U _]). apply (equivalents _ _ _ _ _ _ _ Q') in Y.
      apply merged_says in U. eapply MatchesBoth; eauto.
    * apply closed_ok in B. apply sb in U. destruct U as ([nf why] & s13 & N & U).
      destruct (t_concept nf) as [b'|] eqn:T; [|discriminate]. destruct (smem cid_eqb b' eqr) eqn:Mm; [|discriminate].
      injection U as <- _.
      assert (Y : In b' eqr).
      { unfold smem in Mm. apply existsb_exists in Mm. destruct Mm as (d & Y & D).
        destruct (cid_eqb_spec b' d); [subst; exact Y|discriminate]. }
      apply (equivalents _ _ _ _ _ _ _ Q') in Y. eapply MatchesEvaluated; eauto.
      exists n, s12, nf, why, s13. auto.
  Qed.
  Lemma examples_matched n : matched n.
  Proof.
    induction n as [|n IH]; intros R e g eqs k s b s' He H K E; [discriminate|].
    pose proof (search_kp_up_to _ _ _ _ _ _ _ _ L n) as OB.
    cbn [search step o_examples] in E. unfold find_examples in E.
    destruct (t_exp g) as [[l r]|] eqn:X.
    - unfold branched_examples in E. apply sb in E. destruct E as (bl & s1 & Bl & E).
      pose proof (kept _ _ _ _ (contains_bound_kp _ _ _ _ _ _ _ _ L e l) H Bl) as H1.
      apply sb in E. destruct E as (br & s2 & Br & E).
      pose proof (kept _ _ _ _ (contains_bound_kp _ _ _ _ _ _ _ _ L e r) H1 Br) as H2.
      destruct bl, br.
      + apply opened_ok in Bl. apply opened_ok in Br.
        apply find_map_from in E; [| |exact H2].
        2:{ intros c. apply (kp_bind _ _ _ _ _ _ _ _ L); [apply (composition_of_concept_kp _ _ _ _ _ _ _ _ L)|].
            intros [[el er]|]; [|apply (kp_ret _ _ _ _ _ _ _ _ L)].
            apply (kp_and_then _ _ _ _ _ _ _ _ L); [|exact K]. apply (example_of_both_kp _ _ _ _ _ _ _ _ L); assumption. }
        destruct E as (c & s3 & s4 & I1 & H3 & E).
        apply sb in E. destruct E as (comp & s5 & C & E).
        pose proof (kept _ _ _ _ (composition_of_concept_kp _ _ _ _ _ _ _ _ L e c) H3 C) as H5.
        destruct comp as [[p q]|]; [|discriminate].
        apply composition_ok in C. apply at_some in E. destruct E as (x & s6 & E & Ek).
        pose proof (kept _ _ _ _ (example_of_both_kp _ _ _ _ _ _ _ _ L n OB e l r p q He) H5 E) as H6.
        exists c, x, s6, s4. split; [exact I1|]. split; [|split; [exact H6|exact Ek]].
        exact (both_matched n e g l r c p q s5 x s6 IH He H5 X Bl Br C E).
      + apply opened_ok in Bl. apply closed_ok in Br. apply at_some in E. destruct E as (x & s3 & E & Ek).
        pose proof (kept _ _ _ _ (half_generalisation_kp _ _ _ _ _ _ _ _ L n OB e l r eqs HRight He) H2 E) as H3.
        apply half_matched in E; try assumption.
        destruct E as (c & p & q & I1 & C & [(T & a' & A & M)|[(T & t & A & M)|(T & y & A & M)]]); exists c, x, s3, s';
          (split; [exact I1|]); (split; [|split; [exact H3|exact Ek]]).
        * eapply MatchesSide with (h := HRight); [exact X|..]; eauto.
        * eapply MatchesShown with (h := HRight); [exact X|..]; eauto.
        * eapply MatchesFree with (h := HRight); [exact X|..]; eauto.
      + apply closed_ok in Bl. apply opened_ok in Br. apply at_some in E. destruct E as (x & s3 & E & Ek).
        pose proof (kept _ _ _ _ (half_generalisation_kp _ _ _ _ _ _ _ _ L n OB e r l eqs HLeft He) H2 E) as H3.
        apply half_matched in E; try assumption.
        destruct E as (c & p & q & I1 & C & [(T & a' & A & M)|[(T & t & A & M)|(T & y & A & M)]]); exists c, x, s3, s';
          (split; [exact I1|]); (split; [|split; [exact H3|exact Ek]]).
        * eapply MatchesSide with (h := HLeft); [exact X|..]; eauto.
        * eapply MatchesShown with (h := HLeft); [exact X|..]; eauto.
        * eapply MatchesFree with (h := HLeft); [exact X|..]; eauto.
      + discriminate.
    - apply sb in E. destruct E as ([] & s1 & E1 & E).
      assert (H1 : J s1).
      { destruct (dbg cfg); [|injection E1 as <-; exact H]. apply sb in E1. destruct E1 as (bb & s2 & E1 & E2).
        unfold slift in E2. apply obind_ok in E2. destruct E2 as (u & _ & E2); injection E2 as _ <-.
        exact (kept _ _ _ _ (contains_bound_kp _ _ _ _ _ _ _ _ L e g) H E1). }
     apply find_map_from in E; [| |exact H1].
      2:{ intros c. apply (kp_bind _ _ _ _ _ _ _ _ L); [apply kp_to_ast with (P := P); [apply OB; constructor|exact He]|intros t; apply K]. }
      destruct E as (c & s3 & s4 & I1 & H3 & E). apply sb in E. destruct E as (t & s5 & Et & E).
      exists c, (ES [(t_key g, t)] []), s5, s4. split; [exact I1|].
      split; [apply MatchesSymbol; [exact X|exists n, s3, s5; auto]|]. split; [|exact E].
      exact (kept _ _ _ _ (kp_to_ast _ _ _ _ (OB n (le_n n)) e c He) H3 Et).
  Qed.
End Found.
