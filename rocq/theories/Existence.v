(** When the evaluator says that something exists (C48). *)
From Verif Require Import Snapshot Search Context StoreFacts MapFacts AstSpec AstFacts SearchKeeps Questions.
From Coq Require Import String List PeanoNat Lia.
Import ListNotations.
Local Open Scope zia_scope.

Section Existence.
  Variable cfg : config.
  Variable snap : snapshot.
  Variable rf : nat.
  Notation ops n := (search cfg snap rf n).

  (** ** Specification *)
  Definition known (e : env) (c : cid) (m : mixed) : Prop := read_concept cfg snap (e_delta e) c = Ok m.
  Definition composed_of (e : env) (c a b : cid) : Prop :=
    exists m, known e c m /\ m_composition m = Some (a, b).
  Definition is_free (e : env) (c : cid) : Prop := exists m, known e c m /\ m_free m = true.
  Definition listed (e : env) (c d : cid) : Prop := exists m, known e c m /\ In d (m_reduces_from cfg m).
  (** [d] is [c] or listed as reducing to it. *)
  Definition stands_for (e : env) (c d : cid) : Prop := d = c \/ listed e c d.
  (** Some part of [t] is the variable whose existence is in question. *)
  Definition asked_for (e : env) (p : tree) : Prop :=
    In (t_key p) (e_bound e) \/ exists c m, t_concept p = Some c /\ known e c m /\ m_bounded m = true.
  Definition open_in (e : env) (t : tree) : Prop := exists p, part_of p t /\ asked_for e p.
  (** [t] is the tree shown for [c]. *)
  Definition shown (e : env) (c : cid) (t : tree) : Prop :=
    exists n s s', o_to_ast (ops n) e c s = Ok (t, s').
  (** [r'] is [r] with the parts known from an example put in. *)
  Definition filled (e : env) (r r' : tree) : Prop :=
    exists lex n s s', substitute cfg snap rf (ops n) e (subst_keys r (es_gen lex)) (es_ex lex) s = Ok (r', s').
  Definition evaluates_to (e : env) (t : tree) (c : cid) : Prop :=
    exists n s nf why s', recursively_reduce (ops n) e t s = Ok ((nf, why), s') /\ t_concept nf = Some c.

  (** [fits e g c]: the concept [c] is an example of the pattern [g].
      - A single symbol is fitted by anything.
      - If the variable occurs on one side only, [c] is a pair whose other part is the concept of the
        other side or a free variable, and the part fits the side (or something that reduces to the
        part does, or the tree shown for the part is an instance of the side).
      - If it occurs on both sides, [c] is a pair, something that stands for its left part fits the
        left side and something that stands for its right part fits the right side as completed with
        the left example, or is what the completed right side evaluates to. *)
  Inductive fits (e : env) : tree -> cid -> Prop :=
  | FitsAny g c : t_exp g = None -> fits e g c
  | FitsLeft g l r c a b a' :
      t_exp g = Some (l, r) -> composed_of e c a b -> open_in e l -> ~ open_in e r ->
      t_concept r = Some b -> stands_for e a a' -> fits e l a' -> fits e g c
  | FitsLeftShown g l r c a b t gen ex :
      t_exp g = Some (l, r) -> composed_of e c a b -> open_in e l -> ~ open_in e r ->
      t_concept r = Some b -> shown e a t -> instance gen ex t l -> fits e g c
  | FitsLeftFree g l r c a b :
      t_exp g = Some (l, r) -> composed_of e c a b -> open_in e l -> ~ open_in e r ->
      is_free e b -> fits e l a -> fits e g c
  | FitsRight g l r c a b b' :
      t_exp g = Some (l, r) -> composed_of e c a b -> ~ open_in e l -> open_in e r ->
      t_concept l = Some a -> stands_for e b b' -> fits e r b' -> fits e g c
  | FitsRightShown g l r c a b t gen ex :
      t_exp g = Some (l, r) -> composed_of e c a b -> ~ open_in e l -> open_in e r ->
      t_concept l = Some a -> shown e b t -> instance gen ex t r -> fits e g c
  | FitsRightFree g l r c a b :
      t_exp g = Some (l, r) -> composed_of e c a b -> ~ open_in e l -> open_in e r ->
      is_free e a -> fits e r b -> fits e g c
  | FitsBoth g l r c a b a' r' b' :
      t_exp g = Some (l, r) -> composed_of e c a b -> open_in e l -> open_in e r ->
      stands_for e a a' -> fits e l a' -> filled e r r' -> stands_for e b b' ->
      (open_in e r' /\ fits e r' b') \/ (~ open_in e r' /\ evaluates_to e r' b') -> fits e g c.

  (** ** Proofs *)
  Lemma read_ok e c s m s' : Search.read cfg snap e c s = Ok (m, s') -> known e c m /\ s' = s.
  Proof.
    unfold Search.read, slift. intros E. apply obind_ok in E. destruct E as (x & E & [= -> ->]). split; [exact E|reflexivity].
  Qed.
  Lemma composition_ok e c s o s' :
    composition_of_concept cfg snap e c s = Ok (o, s') -> exists m, known e c m /\ m_composition m = o.
  Proof.
    unfold composition_of_concept, smap. intros E. apply sb in E. destruct E as (m & s1 & E & E').
    apply read_ok in E. destruct E as [E _]. injection E' as <- <-. eauto.
  Qed.
  Lemma open_branch e s c l r fv bv :
    open_in e (TBranch s c l r fv bv) <-> open_in e l \/ open_in e r \/ asked_for e (TBranch s c l r fv bv).
  Proof.
    split.
    - intros (p & P & A). inversion P; subst; [right; right; exact A|left|right; left]; exists p; auto.
    - intros [(p & P & A)|[(p & P & A)|A]].
      + exists p. split; [apply PartLeft, P|exact A].
      + exists p. split; [apply PartRight, P|exact A].
      + exists (TBranch s c l r fv bv). split; [apply PartSelf|exact A].
  Qed.
  Lemma open_leaf e s c k : open_in e (TLeaf s c k) <-> asked_for e (TLeaf s c k).
  Proof.
    split.
    - intros (p & P & A). inversion P; subst. exact A.
    - intros A. exists (TLeaf s c k). split; [apply PartSelf|exact A].
  Qed.
  Lemma here_ok e t s b s' :
    (if smem key_eqb (t_key t) (e_bound e) then sret true
     else match t_concept t with
          | None => sret false
          | Some c => smap m_bounded (Search.read cfg snap e c)
          end) s = Ok (b, s') -> b = true <-> asked_for e t.
  Proof.
    unfold asked_for. destruct (smem key_eqb (t_key t) (e_bound e)) eqn:M.
    - intros [= <- _]. split; [|auto]. intros _. left.
      unfold smem in M. apply existsb_exists in M. destruct M as (k & I & K).
      destruct (key_eqb_spec (t_key t) k); [subst; exact I|discriminate].
    - assert (N : ~ In (t_key t) (e_bound e)).
      { intros I. unfold smem in M. assert (X : existsb (key_eqb (t_key t)) (e_bound e) = true);
          [|rewrite M in X; discriminate]. apply existsb_exists. exists (t_key t). split; [exact I|].
        destruct (key_eqb_spec (t_key t) (t_key t)); congruence. }
      destruct (t_concept t) as [c|].
      + intros E. unfold smap in E. apply sb in E. destruct E as (m & s1 & E & E'). apply read_ok in E.
        destruct E as [E _]. injection E' as <- _. split.
        * intros B. right. exists c, m. auto.
        * intros [I|(c' & m' & [= <-] & E' & B)]; [contradiction|]. unfold known in E, E'. congruence.
      + intros [= <- _]. split; [discriminate|]. intros [I|(c & m & X & _)]; [contradiction|discriminate].
  Qed.
  Lemma open_ok e t : forall s b s',
    contains_bound_variable_syntax cfg snap e t s = Ok (b, s') -> b = true <-> open_in e t.
  Proof.
    induction t as [x c k|x c l IHl r IHr fv bv]; intros s b s' E; cbn [contains_bound_variable_syntax] in E.
    - apply here_ok in E. rewrite open_leaf. exact E.
    - apply sb in E. destruct E as (bl & s1 & El & E). apply IHl in El. rewrite open_branch.
      destruct bl; [injection E as <- _; tauto|].
      apply sb in E. destruct E as (br & s2 & Er & E). apply IHr in Er.
      destruct br; [injection E as <- _; tauto|]. apply here_ok in E. rewrite E. split; [tauto|].
      intros [X|[X|X]]; [apply El in X; discriminate|apply Er in X; discriminate|exact X].
  Qed.
  Lemma closed_ok e t s s' : contains_bound_variable_syntax cfg snap e t s = Ok (false, s') -> ~ open_in e t.
  Proof. intros E O. apply (open_ok e t _ _ _ E) in O. discriminate. Qed.
  Lemma opened_ok e t s s' : contains_bound_variable_syntax cfg snap e t s = Ok (true, s') -> open_in e t.
  Proof. intros E. apply (open_ok e t _ _ _ E). reflexivity. Qed.

  Lemma opt_some {A B} (o : option A) (f : A -> SM (option B)) s b s' :
    opt_then o f s = Ok (Some b, s') -> exists a, o = Some a /\ f a s = Ok (Some b, s').
  Proof. destruct o; cbn; [eauto|discriminate]. Qed.
  Lemma or_some {A} (m1 m2 : SM (option A)) s b s' :
    or_else m1 m2 s = Ok (Some b, s') ->
    m1 s = Ok (Some b, s') \/ exists s1, m1 s = Ok (None, s1) /\ m2 s1 = Ok (Some b, s').
  Proof.
    unfold or_else. intros E. apply sb in E. destruct E as ([a|] & s1 & E1 & E2).
    - injection E2 as <- <-. auto.
    - eauto.
  Qed.
  Lemma equivalents e c s l s' :
    equivalence_set cfg snap e c s = Ok (l, s') -> forall d, In d l <-> stands_for e c d.
  Proof.
    unfold equivalence_set. intros E. apply sb in E. destruct E as (m & s1 & E & E'). apply read_ok in E.
    destruct E as [E _]. injection E' as <- _. intros d. rewrite in_app_iff. unfold stands_for, listed. split.
    - intros [I|[<-|[]]]; [right; eauto|auto].
    - intros [->|(m' & E' & I)]; [right; left; reflexivity|]. unfold known in E, E'.
      assert (m' = m) by congruence. subst m'. auto.
  Qed.

  Definition found (o : Search.ops) : Prop := forall R e g eqs (k : ex_subs -> SM (option R)) s b s',
    o_examples o e g eqs k s = Ok (Some b, s') -> exists c, In c eqs /\ fits e g c.
  (** Stated for each side of [half_generalisation]. *)
  Lemma half_left n e gen nongen eqs s x s' : found (ops n) ->
    half_generalisation cfg snap (ops n) e gen nongen eqs HRight s = Ok (Some x, s') ->
    exists c a b, In c eqs /\ composed_of e c a b /\
      ((t_concept nongen = Some b /\ exists a', stands_for e a a' /\ fits e gen a') \/
       (t_concept nongen = Some b /\ exists t u v, shown e a t /\ instance u v t gen) \/
       (is_free e b /\ fits e gen a)).
  Proof.
    intros F E. unfold half_generalisation in E. apply find_map_some in E. destruct E as (c & s1 & s2 & I & E).
    apply sb in E. destruct E as (comp & s3 & C & E). destruct comp as [[a b]|]; [|discriminate].
    apply composition_ok in C. exists c, a, b. split; [exact I|]. split; [exact C|].
    destruct (option_eqb cid_eqb (Some b) (t_concept nongen)) eqn:Q; cbn [negb] in E.
    - assert (T : t_concept nongen = Some b).
      { destruct (t_concept nongen) as [d|]; [|discriminate]. cbn in Q. destruct (cid_eqb_spec b d); congruence. }
      apply or_some in E. destruct E as [E|(s4 & _ & E)].
      + left. split; [exact T|]. unfold find_example in E. apply F in E. destruct E as (a' & [<-|[]] & H).
        exists a. split; [left; reflexivity|exact H].
      + apply opt_some in E. destruct E as (b' & T' & E). assert (b' = b) by congruence. subst b'.
        apply opt_some in E. destruct E as (a' & A & E).
        destruct (cid_eqb b b); [injection A as <-|discriminate].
        apply sb in E. destruct E as (t & s5 & Et & E). destruct (check_example t gen) as [y|] eqn:Y.
        * right. left. split; [exact T|]. exists t, (es_gen y), (es_ex y). split; [exists n, s4, s5; exact Et|].
          apply check_example_sound, Y.
        * left. split; [exact T|]. apply sb in E. destruct E as (m & s6 & M & E). apply read_ok in M. destruct M as [M _].
          unfold find_example in E. apply F in E. destruct E as (a' & [<-|J] & H).
          -- exists a. split; [left; reflexivity|exact H].
          -- exists a'. split; [right; exists m; auto|exact H].
    - apply sb in E. destruct E as (m & s4 & M & E). apply read_ok in M. destruct M as [M _].
      destruct (m_free m) eqn:Fm; [|discriminate]. apply at_some in E. destruct E as (y & s5 & E & _).
      unfold find_example in E. apply F in E. destruct E as (a' & [<-|[]] & H).
      right. right. split; [exists m; auto|exact H].
  Qed.
  Lemma half_right n e gen nongen eqs s x s' : found (ops n) ->
    half_generalisation cfg snap (ops n) e gen nongen eqs HLeft s = Ok (Some x, s') ->
    exists c a b, In c eqs /\ composed_of e c a b /\
      ((t_concept nongen = Some a /\ exists b', stands_for e b b' /\ fits e gen b') \/
       (t_concept nongen = Some a /\ exists t u v, shown e b t /\ instance u v t gen) \/
       (is_free e a /\ fits e gen b)).
  Proof.
    intros F E. unfold half_generalisation in E. apply find_map_some in E. destruct E as (c & s1 & s2 & I & E).
    apply sb in E. destruct E as (comp & s3 & C & E). destruct comp as [[a b]|]; [|discriminate].
    apply composition_ok in C. exists c, a, b. split; [exact I|]. split; [exact C|].
    destruct (option_eqb cid_eqb (Some a) (t_concept nongen)) eqn:Q; cbn [negb] in E.
    - assert (T : t_concept nongen = Some a).
      { destruct (t_concept nongen) as [d|]; [|discriminate]. cbn in Q. destruct (cid_eqb_spec a d); congruence. }
      apply or_some in E. destruct E as [E|(s4 & _ & E)].
      + left. split; [exact T|]. unfold find_example in E. apply F in E. destruct E as (a' & [<-|[]] & H).
        exists b. split; [left; reflexivity|exact H].
      + apply opt_some in E. destruct E as (a' & T' & E). assert (a' = a) by congruence. subst a'.
        apply opt_some in E. destruct E as (b' & A & E).
        destruct (cid_eqb a a); [injection A as <-|discriminate].
        apply sb in E. destruct E as (t & s5 & Et & E). destruct (check_example t gen) as [y|] eqn:Y.
        * right. left. split; [exact T|]. exists t, (es_gen y), (es_ex y). split; [exists n, s4, s5; exact Et|].
          apply check_example_sound, Y.
        * left. split; [exact T|]. apply sb in E. destruct E as (m & s6 & M & E). apply read_ok in M. destruct M as [M _].
          unfold find_example in E. apply F in E. destruct E as (b' & [<-|J] & H).
          -- exists b. split; [left; reflexivity|exact H].
          -- exists b'. split; [right; exists m; auto|exact H].
    - apply sb in E. destruct E as (m & s4 & M & E). apply read_ok in M. destruct M as [M _].
      destruct (m_free m) eqn:Fm; [|discriminate]. apply at_some in E. destruct E as (y & s5 & E & _).
      unfold find_example in E. apply F in E. destruct E as (a' & [<-|[]] & H).
      right. right. split; [exists m; auto|exact H].
  Qed.
  Lemma examples_found n : found (ops n).
  Proof.
    induction n as [|n IH]; intros R e g eqs k s b s' E; [discriminate|].
    cbn [search step o_examples] in E. unfold find_examples in E.
    destruct (t_exp g) as [[l r]|] eqn:X.
    - unfold branched_examples in E. apply sb in E. destruct E as (bl & s1 & Bl & E).
      apply sb in E. destruct E as (br & s2 & Br & E). destruct bl, br.
      + apply opened_ok in Bl. apply opened_ok in Br.
        apply find_map_some in E. destruct E as (c & s3 & s4 & I & E). exists c. split; [exact I|].
        apply sb in E. destruct E as (comp & s5 & C & E). destruct comp as [[p q]|]; [|discriminate].
        apply composition_ok in C. apply at_some in E. destruct E as (x & s6 & E & _).
        unfold example_of_both in E. apply sb in E. destruct E as (eql & s7 & L & E).
        pose proof (ok_used _ (search_keeps cfg snap rf n) _ _ _ _ _ _ _ _ E) as U.
        apply IH in E. destruct E as (a' & A & Fa). apply (equivalents _ _ _ _ _ L) in A.
        destruct U as (lex & s8 & s9 & U). apply sb in U. destruct U as (r' & s10 & S & U).
        apply sb in U. destruct U as (eqr & s11 & Q & U). apply sb in U. destruct U as (bb & s12 & B & U).
        assert (FL : filled e r r') by (exists lex, n, s8, s10; exact S).
        destruct bb.
        * apply opened_ok in B. apply IH in U. destruct U as (b' & J & Fb). apply (equivalents _ _ _ _ _ Q) in J.
          eapply FitsBoth; eauto.
        * apply closed_ok in B. apply sb in U. destruct U as ([nf why] & s13 & N & U).
          destruct (t_concept nf) as [b'|] eqn:T; [|discriminate]. destruct (smem cid_eqb b' eqr) eqn:M; [|discriminate].
          assert (J : In b' eqr).
          { unfold smem in M. apply existsb_exists in M. destruct M as (d & J & D).
            destruct (cid_eqb_spec b' d); [subst; exact J|discriminate]. }
          apply (equivalents _ _ _ _ _ Q) in J. eapply FitsBoth; eauto.
          right. split; [exact B|]. exists n, s12, nf, why, s13. auto.
      + apply opened_ok in Bl. apply closed_ok in Br. apply at_some in E. destruct E as (x & s3 & E & _).
        apply half_left in E; [|exact IH].
        destruct E as (c & p & q & I & C & [(T & a' & A & H)|[(T & t & u & v & A & H)|(T & H)]]); exists c; (split; [exact I|]).
        * eapply FitsLeft; eauto.
        * eapply FitsLeftShown; eauto.
        * eapply FitsLeftFree; eauto.
      + apply closed_ok in Bl. apply opened_ok in Br. apply at_some in E. destruct E as (x & s3 & E & _).
        apply half_right in E; [|exact IH].
        destruct E as (c & p & q & I & C & [(T & a' & A & H)|[(T & t & u & v & A & H)|(T & H)]]); exists c; (split; [exact I|]).
        * eapply FitsRight; eauto.
        * eapply FitsRightShown; eauto.
        * eapply FitsRightFree; eauto.
      + discriminate.
    - apply sb in E. destruct E as ([] & s1 & _ & E). apply find_map_some in E.
      destruct E as (c & s3 & s4 & I & E). exists c. split; [exact I|]. apply FitsAny, X.
  Qed.

  (** ** The rule for existence questions *)
  (** [c] is listed as reducing to the concept of [true]. *)
  Definition holds (e : env) (c : cid) : Prop :=
    exists t, concrete_concept_id cfg snap (e_delta e) CTrue = Ok (Some t) /\ listed e t c.
  Lemma existence_fits n e ll lr r s t why s' :
    reduce_by_expanded_left_branch cfg snap (ops n) e ll lr r s = Ok (Some (t, why), s') ->
    has_type cfg snap e lr CExistsSuchThat /\ is_leaf_variable ll = true /\
    tree_of_type cfg snap rf e CTrue t /\ exists c, holds e c /\ fits e r c.
  Proof.
    unfold reduce_by_expanded_left_branch. intros E. apply sb in E. destruct E as (ty & s1 & T & E).
    apply type_step in T. destruct T as [-> T].
    destruct (opt_cct_eqb ty (Some CExistsSuchThat) && is_leaf_variable ll)%bool eqn:B; [|discriminate].
    apply andb_prop in B. destruct B as [B1 B2]. assert (Ty : ty = Some CExistsSuchThat).
    { destruct ty as [[]|]; try discriminate B1. reflexivity. }
    subst ty. split.
    { unfold type_of in T. unfold has_type. destruct (t_concept lr) as [id|]; [eauto|discriminate]. }
    split; [exact B2|].
    apply sb in E. destruct E as (o & s2 & C & E). unfold concrete_id, slift in C. apply obind_ok in C.
    destruct C as (o' & C & [= -> ->]).
    apply sb in E. destruct E as (id & s3 & U & E). unfold slift in U. apply obind_ok in U.
    destruct U as (id' & U & [= -> ->]). destruct o as [i|]; [|discriminate]. injection U as ->.
    apply sb in E. destruct E as (m & s4 & M & E). apply read_ok in M. destruct M as [M ->].
    apply at_some in E. destruct E as (y & s5 & E & E'). apply sb in E'. destruct E' as (t' & s6 & Tt & E').
    injection E' as -> _ _. split.
    - exists n, id, s5, s6. auto.
    - unfold find_example in E. apply examples_found in E. destruct E as (c & I & F). exists c. split; [|exact F].
      exists id. split; [exact C|]. exists m. auto.
  Qed.

  Lemma or_none {A} (m1 m2 : SM (option A)) s s' :
    or_else m1 m2 s = Ok (None, s') -> exists s1, m1 s = Ok (None, s1) /\ m2 s1 = Ok (None, s').
  Proof.
    unfold or_else. intros E. apply sb in E. destruct E as ([a|] & s1 & E1 & E2); [discriminate|eauto].
  Qed.
  Lemma find_map_none {A B} (f : A -> SM (option B)) l : forall s s',
    find_map f l s = Ok (None, s') -> forall a, In a l -> exists s1 s2, f a s1 = Ok (None, s2).
  Proof.
    induction l as [|x l IH]; intros s s' E a; [intros []|]. cbn [find_map] in E. apply or_none in E.
    destruct E as (s1 & E1 & E2). intros [<-|I]; [eauto|eapply IH; eauto].
  Qed.
  (** A single symbol always has an example. *)
  Lemma symbol_example n e g a s s' : t_exp g = None ->
    find_example (ops (S n)) e g [a] s <> Ok (None, s').
  Proof.
    intros X E. unfold find_example in E. cbn [search step o_examples] in E. unfold find_examples in E.
    rewrite X in E. apply sb in E. destruct E as ([] & s1 & _ & E).
    destruct (find_map_none _ _ _ _ E a (or_introl eq_refl)) as (s2 & s3 & H).
    apply sb in H. destruct H as (t & s4 & _ & H). discriminate.
  Qed.
  Lemma symbol_examples n e g a s y s' : t_exp g = None ->
    find_example (ops n) e g [a] s = Ok (Some y, s') -> exists t, y = ES [(t_key g, t)] [].
  Proof.
    intros X E. unfold find_example in E. destruct n; [discriminate|].
    cbn [search step o_examples] in E. unfold find_examples in E.
    rewrite X in E. apply sb in E. destruct E as ([] & s1 & _ & E).
    apply find_map_some in E. destruct E as (c & s3 & s4 & I & E). apply sb in E.
    destruct E as (t & s5 & _ & E). injection E as <- _. eauto.
  Qed.
  Lemma half_none n e gen nongen q eqs h s s' c a b :
    t_exp gen = None -> t_concept nongen = Some q -> In c eqs -> composed_of e c a b ->
    (match h with HRight => b | HLeft => a end = q \/ is_free e match h with HRight => b | HLeft => a end) ->
    half_generalisation cfg snap (ops (S n)) e gen nongen eqs h s <> Ok (None, s').
  Proof.
    intros X T I (m & M & C) H E. unfold half_generalisation in E.
    destruct (find_map_none _ _ _ _ E c I) as (s1 & s2 & Z). clear E.
    apply sb in Z. destruct Z as (comp & s3 & K & Z). apply composition_ok in K. destruct K as (m' & M' & K).
    unfold known in M, M'. assert (m' = m) by congruence. subst m'. rewrite C in K. subst comp.
    assert (G : forall other gp (Hh : other = q \/ is_free e other) f sx sy,
      (if negb (option_eqb cid_eqb (Some other) (t_concept nongen)) then
         sbind (Search.read cfg snap e other) (fun m =>
         if m_free m then and_then (find_example (ops (S n)) e gen [gp]) (fun subs =>
                sret (es_merge subs (ES [] [(other, nongen)]))) else sret None)
       else or_else (find_example (ops (S n)) e gen [gp]) f) sx <> Ok (None, sy)).
    { clear Z. intros other gp Hh f sx sy Z.
      destruct (option_eqb cid_eqb (Some other) (t_concept nongen)) eqn:Q; cbn [negb] in Z.
      - apply or_none in Z. destruct Z as (s4 & Z & _). exact (symbol_example _ _ _ _ _ _ X Z).
      - destruct Hh as [->|(mo & Mo & Fo)].
        + rewrite T in Q. cbn in Q. destruct (cid_eqb_spec q q); congruence.
        + apply sb in Z. destruct Z as (mo' & s4 & R & Z). apply read_ok in R. destruct R as [R _].
          unfold known in Mo, R. assert (mo' = mo) by congruence. subst mo'. rewrite Fo in Z.
          unfold and_then in Z. apply sb in Z. destruct Z as ([y|] & s5 & Z1 & Z2).
          * destruct (symbol_examples _ _ _ _ _ _ _ X Z1) as [t ->]. discriminate Z2.
          * exact (symbol_example _ _ _ _ _ _ X Z1). }
    destruct h; cbn [negb] in Z.
    - exact (G a b H _ _ _ Z).
    - exact (G b a H _ _ _ Z).
  Qed.

  (** What the rule answers to the question whether something exists that makes [x p] (or [p x]) true,
      where [x] is the variable and [p] does not mention it. *)
  Definition one_sided (e : env) (g x p : tree) (h : hand) : Prop :=
    t_exp g = Some (match h with HRight => (x, p) | HLeft => (p, x) end) /\
    t_exp x = None /\ open_in e x /\ ~ open_in e p.
  (** The part of the pair (a, b) on the side [h]. *)
  Definition on_side (h : hand) (a b : cid) : cid := match h with HLeft => a | HRight => b end.
  Lemma existence_exact n e ll lr g x p h q s r s' :
    one_sided e g x p h -> t_concept p = Some q ->
    has_type cfg snap e lr CExistsSuchThat -> is_leaf_variable ll = true ->
    reduce_by_expanded_left_branch cfg snap (ops (S (S n))) e ll lr g s = Ok (r, s') ->
    (exists t why, r = Some (t, why) /\ tree_of_type cfg snap rf e CTrue t) <->
    (exists c a b, holds e c /\ composed_of e c a b /\ (on_side h a b = q \/ is_free e (on_side h a b))).
  Proof.
    intros (G & X & Ox & Cp) T L V E. split.
    - intros (t & why & -> & Tt). apply existence_fits in E. destruct E as (_ & _ & _ & c & H & F).
      destruct h; inversion F; subst;
        repeat match goal with
               | A : t_exp g = _, B : t_exp g = _ |- _ => rewrite A in B; clear A
               | A : Some _ = Some _ |- _ => injection A as ? ?; subst
               | A : Some _ = None |- _ => discriminate A
               | A : None = Some _ |- _ => discriminate A
               end; try contradiction.
      all: eexists c, _, _; split; [exact H|]; split; [eassumption|]; cbn [on_side];
        first [left; congruence | right; assumption].
    - intros (c & a & b & H & C & W). destruct r as [[t why]|].
      + exists t, why. split; [reflexivity|]. apply existence_fits in E. tauto.
      + exfalso. unfold reduce_by_expanded_left_branch in E. apply sb in E. destruct E as (ty & s1 & Ty & E).
        apply type_step in Ty. destruct Ty as [-> Ty]. destruct L as (id & L1 & L2).
        unfold type_of in Ty. rewrite L1 in Ty. assert (ty = Some CExistsSuchThat) by congruence. subst ty.
        rewrite V in E. cbn [opt_cct_eqb option_eqb andb] in E.
        destruct H as (tr & H1 & (m & M & I)).
        apply sb in E. destruct E as (o & s2 & D & E). unfold concrete_id, slift in D. apply obind_ok in D.
        destruct D as (o' & D & [= -> ->]). assert (o = Some tr) by congruence. subst o.
        apply sb in E. destruct E as (id' & s3 & U & E). unfold slift in U. apply obind_ok in U.
        destruct U as (id'' & U & [= -> ->]). injection U as <-.
        apply sb in E. destruct E as (m' & s4 & M' & E). apply read_ok in M'. destruct M' as [M' ->].
        unfold known in M, M'. assert (m' = m) by congruence. subst m'.
        unfold and_then in E. apply sb in E. destruct E as ([y|] & s5 & E & E').
        { apply sb in E'. destruct E' as (t & s6 & _ & E'). discriminate. }
        clear E'. unfold find_example in E. cbn [search step o_examples] in E. unfold find_examples in E.
        rewrite G in E. destruct h; unfold branched_examples in E; apply sb in E; destruct E as (bl & s6 & Bl & E);
          apply sb in E; destruct E as (br & s7 & Br & E).
        * destruct bl; [apply opened_ok in Bl; contradiction|]. destruct br; [|apply closed_ok in Br; contradiction].
          unfold and_then in E. apply sb in E. destruct E as ([y|] & s8 & E & E'); [discriminate E'|].
          exact (half_none n e x p q _ HLeft _ _ c a b X T I C W E).
        * destruct br; [apply opened_ok in Br; contradiction|]. destruct bl; [|apply closed_ok in Bl; contradiction].
          unfold and_then in E. apply sb in E. destruct E as ([y|] & s8 & E & E'); [discriminate E'|].
          exact (half_none n e x p q _ HRight _ _ c a b X T I C W E).
  Qed.

  (** [t] is the question whether something exists that makes [g] true. *)
  Definition existence_question (e : env) (t g : tree) : Prop :=
    t_concept t = None /\ exists l ll lr, t_exp t = Some (l, g) /\ t_exp l = Some (ll, lr) /\
      has_type cfg snap e lr CExistsSuchThat /\ is_leaf_variable ll = true.
  (** [g] is not itself a question [.. > ..] or [.. -> ..] after its first part. *)
  Definition no_question (e : env) (g : tree) : Prop :=
    forall rl rr, t_exp g = Some (rl, rr) -> ~ has_type cfg snap e rl CGreaterThan /\ ~ has_type cfg snap e rl CReduction.
  Lemma no_right_rule n e l g s r s' : no_question e g ->
    opt_then (t_exp g) (fun '(rl, rr) => reduce_by_expanded_right_branch cfg snap (ops n) e l rl rr) s = Ok (r, s') ->
    r = None /\ s' = s.
  Proof.
    intros N E. destruct (t_exp g) as [[rl rr]|] eqn:X; cbn [opt_then] in E; [|injection E as <- <-; auto].
    destruct (N rl rr X) as [N1 N2]. unfold reduce_by_expanded_right_branch in E. apply sb in E.
    destruct E as (ty & s1 & T & E). apply type_step in T. destruct T as [-> T].
    assert (D : ty <> Some CGreaterThan /\ ty <> Some CReduction).
    { split; intros ->; [apply N1|apply N2]; unfold has_type, type_of in *;
        destruct (t_concept rl) as [id|]; first [discriminate|eauto]. }
    destruct ty as [[]|]; try (injection E as <- <-; auto; fail); exfalso; tauto.
  Qed.
  Lemma existence_answered n e t g x p h q s r s' :
    existence_question e t g -> no_question e g -> one_sided e g x p h -> t_concept p = Some q ->
    lookup_red (e_reds e) (t_key t) (s_red s) = None ->
    o_reduce (ops (S (S (S n)))) e t s = Ok (r, s') ->
    (exists c a b, holds e c /\ composed_of e c a b /\ (on_side h a b = q \/ is_free e (on_side h a b))) ->
    exists y why, r = Some (y, why) /\ tree_of_type cfg snap rf e CTrue y.
  Proof.
    intros (Tc & l & ll & lr & X & Xl & L & V) N O T K E W.
    cbn [search] in E. cbn [step o_reduce] in E. unfold reduce in E. apply sb in E.
    destruct E as (cached & s1 & C & E). unfold cached_reduction in C. rewrite K in C. injection C as <- <-.
    rewrite Tc in E. apply sb in E. destruct E as (cc & s1 & C & E). injection C as <- <-.
    apply sb in E. destruct E as (rr & s1 & E & E').
    apply sb in E'. destruct E' as (u & s2 & _ & E'). injection E' as <- _.
    unfold or_else in E. apply sb in E. destruct E as (o & s3 & C & E). injection C as <- <-.
    rewrite X in E. cbn [opt_then] in E. unfold reduce_pair in E.
    change (step cfg snap rf (step cfg snap rf (ops n))) with (ops (S (S n))) in E.
    unfold or_else in E. apply sb in E. destruct E as (o & s4 & C & E).
    apply no_right_rule in C; [|exact N]. destruct C as [-> ->].
    rewrite Xl in E. cbn [opt_then] in E. apply sb in E. destruct E as (o & s5 & C & E).
    apply (proj2 (existence_exact _ _ _ _ _ _ _ _ _ _ _ _ O T L V C)) in W.
    destruct W as (y & why & -> & Ty). injection E as <- _. eauto.
  Qed.
End Existence.
