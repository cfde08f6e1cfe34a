(** Looking up names in the committed store. *)
From Verif Require Import Context LexerFacts Snapshot StoreSpec NameSpec MapFacts AstFacts StoreFacts StoreInv RangeFacts
  History Meaning.
From Coq Require Import String List Relations Permutation.
Import ListNotations.
Local Open Scope zia_scope.

Lemma underscored_spec t : is_variable_symbol t = true <-> underscored t.
Proof.
  unfold is_variable_symbol, underscored, starts_with, ends_with. rewrite andb_true_iff. split.
  - intros [A B]. split.
    + destruct t as [|c t]; [discriminate|]. apply N.eqb_eq in A. subst c. exists t. reflexivity.
    + destruct (unsnoc t) as [[u c]|] eqn:E; [|discriminate]. apply N.eqb_eq in B. subst c.
      exists u. apply unsnoc_Some. exact E.
  - intros [[u A] [v B]]. subst t. split; [reflexivity|]. rewrite B, unsnoc_app. reflexivity.
Qed.

Section Lookup.
  Variables (cfg : config) (s : snapshot).
  Hypothesis F : fair cfg.
  Hypothesis S : sane s.
  Lemma read_at n c :
    lookup s n = Some c -> read_concept cfg s delta_default (Committed n) = Ok (mixed_of_committed c).
  Proof. apply read_committed. Qed.
  Lemma read_back n m :
    read_concept cfg s delta_default (Committed n) = Ok m ->
    exists c, lookup s n = Some c /\ m = mixed_of_committed c.
  Proof.
    unfold read_concept, maybe_read_concept. cbn. unfold lookup.
    destruct (nth_error (concepts s) n) as [c|]; [|discriminate]. cbn. intros [= <-]. eauto.
  Qed.
  Lemma listed_of c : forall k,
    In k (m_reduces_from cfg (mixed_of_committed c)) <-> exists n, k = Committed n /\ In n (reduces_from c).
  Proof.
    intros k. unfold m_reduces_from, mixed_of_committed. cbn [ch_from].
    assert (P : ord cfg (OChanges (m_id (mixed_of_committed c))) (cid * bool) [] = []).
    { apply Permutation_nil. symmetry. apply F. }
    unfold mixed_of_committed in P. rewrite P. cbn [filter map]. rewrite app_nil_r, filter_In. cbn [aget].
    split.
    - intros [I _]. apply in_map_iff in I. destruct I as (n & <- & I). exists n. split; [reflexivity|].
      eapply Permutation_in; [apply F|exact I].
    - intros (n & -> & I). split; [|reflexivity]. apply in_map. eapply Permutation_in; [symmetry; apply F|exact I].
  Qed.
  Lemma composition_read c n l r :
    lookup s n = Some c -> (m_composition (mixed_of_committed c) = Some (Committed l, Committed r) <-> composed s n l r).
  Proof.
    intros L. unfold m_composition, mixed_of_committed, get_composition, composed. split.
    - destruct (c_spec c) as [|[l' r' fv bv|] red|] eqn:E; try discriminate. intros [= -> ->]. eauto 8.
    - intros (c' & fv & bv & red & L' & E). rewrite L in L'. injection L' as <-. rewrite E. reflexivity.
  Qed.
  Lemma composition_read_some c p :
    m_composition (mixed_of_committed c) = Some p -> exists l r, p = (Committed l, Committed r).
  Proof.
    unfold m_composition, mixed_of_committed. destruct (get_composition c) as [[l r]|]; [|discriminate].
    intros [= <-]. eauto.
  Qed.
  Lemma concrete_read n cc :
    concrete_concept_type cfg s delta_default (Committed n) = Ok (Some cc) <-> built_in s n cc.
  Proof.
    unfold concrete_concept_type, built_in. split.
    - destruct (read_concept cfg s delta_default (Committed n)) as [m| | |] eqn:E; try discriminate.
      apply read_back in E. destruct E as (c & L & ->). cbn. unfold get_concrete.
      destruct (c_spec c) eqn:E; try discriminate. intros [= ->]. eauto.
    - intros (c & L & E). rewrite (read_at n c L). cbn. unfold get_concrete. rewrite E. reflexivity.
  Qed.

  Definition label_composition (n x : nat) : Prop := exists lab, composed s n lab x /\ built_in s lab CLabel.
  Definition from (ns : list nat) (n : nat) : Prop :=
    exists m, In m ns /\ clos_refl_trans nat (lists_reduction_from s) m n.

  Lemma labellee_sound fuel : forall ks x,
    (forall k, In k ks -> exists n, k = Committed n) ->
    labellee_loop cfg s delta_default fuel ks = Ok (Some x) ->
    exists m n y, In (Committed m) ks /\ clos_refl_trans nat (lists_reduction_from s) m n /\
                  x = Committed y /\ label_composition n y.
  Proof.
    induction fuel as [|fuel IH]; intros ks x H E.
    { destruct ks; discriminate. }
    destruct ks as [|k ks]; [discriminate|]. cbn [labellee_loop] in E.
    destruct (H k (or_introl eq_refl)) as (n & ->).
    destruct (read_concept cfg s delta_default (Committed n)) as [m| | |] eqn:R; try discriminate.
    apply read_back in R. destruct R as (c & L & ->). cbn [obind] in E.
    assert (REC : labellee_loop cfg s delta_default fuel (ks ++ m_reduces_from cfg (mixed_of_committed c)) = Ok (Some x) ->
       exists m n0 y, In (Committed m) (Committed n :: ks) /\ clos_refl_trans nat (lists_reduction_from s) m n0 /\
                  x = Committed y /\ label_composition n0 y).
    { intros E'. apply IH in E'.
      - destruct E' as (m & n' & y & I & C & -> & LC). apply in_app_iff in I. destruct I as [I|I].
        + exists m, n', y. split; [right; exact I|]. auto.
        + apply listed_of in I. destruct I as (m' & [= <-] & I). exists n, n', y. split; [left; reflexivity|].
          split; [|auto]. eapply rt_trans; [|exact C]. apply rt_step. exists c. auto.
      - intros k I. apply in_app_iff in I. destruct I as [I|I]; [apply H; right; exact I|].
        apply listed_of in I. destruct I as (m & -> & _). eauto. }
    destruct (m_composition (mixed_of_committed c)) as [p|] eqn:C; [|exact (REC E)].
    destruct (composition_read_some c p C) as (l & r & ->).
    destruct (concrete_concept_type cfg s delta_default (Committed l)) as [ty| | |] eqn:T; try discriminate.
    cbn [obind] in E. destruct (opt_cct_eqb ty (Some CLabel)) eqn:Ty; [|exact (REC E)].
    injection E as <-. exists n, n, r. split; [left; reflexivity|]. split; [apply rt_refl|].
    split; [reflexivity|]. exists l. split; [apply (composition_read c n l r L); exact C|].
    apply concrete_read. destruct ty as [[]|]; try discriminate. exact T.
  Qed.
  Lemma labellee_complete fuel : forall ks,
    (forall k, In k ks -> exists n, k = Committed n) ->
    labellee_loop cfg s delta_default fuel ks = Ok None ->
    forall m n y, In (Committed m) ks -> clos_refl_trans nat (lists_reduction_from s) m n ->
                  ~ label_composition n y.
  Proof.
    induction fuel as [|fuel IH]; intros ks H E.
    { destruct ks; [|discriminate]. intros m n y []. }
    destruct ks as [|k ks]; [intros m n y []|]. cbn [labellee_loop] in E.
    destruct (H k (or_introl eq_refl)) as (n & ->).
    destruct (read_concept cfg s delta_default (Committed n)) as [m| | |] eqn:R; try discriminate.
    apply read_back in R. destruct R as (c & L & ->). cbn [obind] in E.
    assert (REC : labellee_loop cfg s delta_default fuel (ks ++ m_reduces_from cfg (mixed_of_committed c)) = Ok None).
    { destruct (m_composition (mixed_of_committed c)) as [p|] eqn:C; [|exact E].
      destruct (composition_read_some c p C) as (l & r & ->).
      destruct (concrete_concept_type cfg s delta_default (Committed l)) as [ty| | |] eqn:T; try discriminate.
      cbn [obind] in E. destruct (opt_cct_eqb ty (Some CLabel)) eqn:Ty; [discriminate|]. exact E. }
    assert (NOT : forall y, ~ label_composition n y).
    { intros y (lab & Cp & B). apply (composition_read c n lab y L) in Cp. rewrite Cp in E.
      apply concrete_read in B. rewrite B in E. discriminate E. }
    clear E.
    assert (HK : forall k, In k (ks ++ m_reduces_from cfg (mixed_of_committed c)) -> exists n, k = Committed n).
    { intros k I. apply in_app_iff in I. destruct I as [I|I]; [apply H; right; exact I|].
      apply listed_of in I. destruct I as (m & -> & _). eauto. }
    intros m n' y I C. destruct I as [[= <-]|I].
    - apply clos_rt_rt1n in C. destruct C as [|m' n' (c' & L' & I) C]; [apply NOT|].
      rewrite L in L'. injection L' as <-.
      apply (IH _ HK REC m' n' y); [|apply clos_rt1n_rt; exact C].
      apply in_app_iff. right. apply listed_of. eauto.
    - apply (IH _ HK REC m n' y); [|exact C]. apply in_app_iff. left. exact I.
  Qed.

  Lemma t_split m n : clos_trans nat (lists_reduction_from s) m n <->
    exists k, lists_reduction_from s m k /\ clos_refl_trans nat (lists_reduction_from s) k n.
  Proof.
    split.
    - intros C. apply clos_trans_t1n in C. destruct C as [k I|k n I C].
      + exists k. split; [exact I|apply rt_refl].
      + exists k. split; [exact I|]. apply clos_trans_t1n_iff in C. clear I. induction C.
        * apply rt_step. assumption.
        * eapply rt_trans; eassumption.
    - intros (k & I & C). apply clos_rt_rtn1 in C. induction C as [|x y' I' C IH].
      + apply t_step. exact I.
      + eapply t_trans; [exact IH|]. apply t_step. exact I'.
  Qed.
  Lemma string_lookup t :
    get_string_concept cfg s delta_default t = Ok (option_map Committed (aget text_eqb t (string_map s))).
  Proof. unfold get_string_concept. destruct (aget text_eqb t (string_map s)); reflexivity. Qed.
  Lemma from_label_found fuel t x :
    concept_from_label cfg s delta_default fuel t = Ok (Some x) ->
    exists y, x = Committed y /\ found_under s t y.
  Proof.
    unfold concept_from_label. rewrite string_lookup. cbn [obind].
    destruct (aget text_eqb t (string_map s)) as [str|] eqn:A; [|discriminate]. cbn [option_map].
    unfold get_labellee. destruct (read_concept cfg s delta_default (Committed str)) as [m| | |] eqn:R; try discriminate.
    apply read_back in R. destruct R as (c & L & ->). cbn [obind]. intros E.
    apply labellee_sound in E.
    - destruct E as (m & n & y & I & C & -> & lab & Cp & B). exists y. split; [reflexivity|].
      apply listed_of in I. destruct I as (m' & [= <-] & I).
      exists str, n, lab. split; [exact A|]. split; [|auto]. apply t_split. exists m.
      split; [exists c; auto|exact C].
    - intros k I. apply listed_of in I. destruct I as (m & -> & _). eauto.
  Qed.
  Lemma from_label_none fuel t :
    concept_from_label cfg s delta_default fuel t = Ok None -> forall y, ~ found_under s t y.
  Proof.
    unfold concept_from_label. rewrite string_lookup. cbn [obind].
    destruct (aget text_eqb t (string_map s)) as [str|] eqn:A; cbn [option_map].
    - unfold get_labellee. destruct (read_concept cfg s delta_default (Committed str)) as [m| | |] eqn:R; try discriminate.
      apply read_back in R. destruct R as (c & L & ->). cbn [obind]. intros E y (str' & comp & lab & A' & C & Cp & B).
      rewrite A in A'. injection A' as <-. apply t_split in C. destruct C as (k & (c' & L' & I) & C).
      rewrite L in L'. injection L' as <-.
      assert (HK : forall k, In k (m_reduces_from cfg (mixed_of_committed c)) -> exists n, k = Committed n).
      { intros k' I'. apply listed_of in I'. destruct I' as (m & -> & _). eauto. }
      apply (labellee_complete fuel _ HK E k comp y); [|exact C|exists lab; auto].
      apply listed_of. eauto.
    - intros _ y (str & comp & lab & A' & _). rewrite A in A'. discriminate.
  Qed.

  (** What is reported about a symbol. *)
  Definition truthful (t : text) (k : concept_kind) : Prop :=
    match k with
    | KVariable => underscored t
    | KNew => ~ underscored t /\ forall x, ~ found_under s t x
    | KAbstract id => ~ underscored t /\
        exists x, id = Committed x /\ found_under s t x /\ forall cc, ~ built_in s x cc
    | KConcrete id cc => ~ underscored t /\
        exists x, id = Committed x /\ found_under s t x /\ built_in s x cc
    end.
  Lemma kind_truthful fuel c t k :
    c_snap c = s -> c_delta c = delta_default -> kind_of_symbol cfg fuel c t = Ok k -> truthful t k.
  Proof.
    intros Es Ed. unfold kind_of_symbol. destruct (is_variable_symbol t) eqn:V.
    - intros [= <-]. apply underscored_spec, V.
    - assert (NV : ~ underscored t) by (rewrite <- underscored_spec; congruence).
      rewrite Es, Ed. destruct (concept_from_label cfg s delta_default fuel t) as [[id|]| | |] eqn:L; try discriminate;
        cbn [obind].
      + apply from_label_found in L. destruct L as (x & -> & Fu).
        destruct (read_concept cfg s delta_default (Committed x)) as [m| | |] eqn:R; try discriminate.
        pose proof R as R0. apply read_back in R. destruct R as (cc & L & ->). cbn [obind].
        assert (T : concrete_concept_type cfg s delta_default (Committed x) = Ok (m_concrete (mixed_of_committed cc))).
        { unfold concrete_concept_type. rewrite R0. reflexivity. }
        destruct (m_concrete (mixed_of_committed cc)) as [ty|] eqn:Ty; intros [= <-].
        * split; [exact NV|]. exists x. split; [reflexivity|]. split; [exact Fu|]. apply concrete_read. exact T.
        * split; [exact NV|]. exists x. split; [reflexivity|]. split; [exact Fu|].
          intros ty' B. apply concrete_read in B. congruence.
      + intros [= <-]. split; [exact NV|]. apply (from_label_none fuel). exact L.
  Qed.
End Lookup.
