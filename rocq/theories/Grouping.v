(** Lists of tokens without precedence or associativity. *)
From Verif Require Import Snapshot Context MapFacts StoreFacts RangeFacts AstFacts Quiet SearchPlain.
From Coq Require Import String List PeanoNat Lia Permutation.
Import ListNotations.
Local Open Scope zia_scope.

(** ** Specification *)
(** [u] is [t1 (t2 (... tn))]. *)
Inductive right_grouped : list tree -> tree -> Prop :=
| GroupOne t : right_grouped [t] t
| GroupMore t ts u v : right_grouped ts v -> t_exp u = Some (t, v) -> right_grouped (t :: ts) u.
(** No relation of the form [x precedes y] mentions the concept of a token. *)
Definition unrelated (cfg : config) (c : ctx) (ts : list tree) : Prop :=
  forall p m, concrete_concept_id cfg (c_snap c) (c_delta c) CPrecedes = Ok (Some p) ->
    read_concept cfg (c_snap c) (c_delta c) p = Ok m ->
    forall y comp, In (y, comp) (m_iter_hand_of cfg m HLeft) ->
      (forall t, In t ts -> t_concept t <> Some y) /\
      (forall m', read_concept cfg (c_snap c) (c_delta c) comp = Ok m' ->
       forall x w, In (x, w) (m_iter_hand_of cfg m' HRight) -> forall t, In t ts -> t_concept t <> Some x).

(** Asked one after the other, some token of the list is found to be left-associative. *)
Inductive meets_left (cfg : config) (fuel : nat) : ctx -> list tree -> Prop :=
| MeetsHere t ts c c' : c_assoc cfg fuel t c = Ok (Val ALeft, c') -> meets_left cfg fuel c (t :: ts)
| MeetsLater t ts a c c' : c_assoc cfg fuel t c = Ok (Val a, c') -> meets_left cfg fuel c' ts -> meets_left cfg fuel c (t :: ts).
(** So it is for the tokens that bind weakest. *)
Definition left_associative (cfg : config) (fuel : nat) (c : ctx) (ts : list tree) : Prop :=
  exists info c1, lowest_precedence_info cfg fuel ts c = Ok (Val info, c1) /\
    (forall t, In t (ts_syntax info) -> In t ts) /\ meets_left cfg fuel c1 (ts_syntax info).

(** ** Lists *)
Fixpoint desc (l : list nat) : Prop :=
  match l with
  | [] => True
  | x :: l => (forall y, In y l -> le y x) /\ desc l
  end.
Lemma insert_desc_in n l x : In x (insert_desc n l) <-> x = n \/ In x l.
Proof.
  assert (Y : n = x <-> x = n) by (split; congruence).
  induction l as [|m l IH]; cbn; [tauto|]. destruct (Nat.leb m n); cbn; [tauto|]. rewrite IH. tauto.
Qed.
Lemma insert_desc_desc n l : desc l -> desc (insert_desc n l).
Proof.
  induction l as [|m l IH]; cbn [insert_desc desc].
  { intros _. split; [intros y []|exact I]. }
  intros [H K]. destruct (Nat.leb_spec m n).
  - cbn. split; [|auto]. intros y [->|Y]; [assumption|]. specialize (H y Y). lia.
  - cbn. split; [|auto]. intros y Y. apply insert_desc_in in Y. destruct Y as [->|Y]; [lia|auto].
Qed.
Lemma heap_pops_in l x : In x (heap_pops l) <-> In x l.
Proof. induction l as [|y l IH]; cbn; [tauto|]. rewrite insert_desc_in, IH. split; intros [|]; auto. Qed.
Lemma heap_pops_desc l : desc (heap_pops l).
Proof. induction l as [|y l IH]; cbn; [exact I|]. apply insert_desc_desc, IH. Qed.
Lemma one_token (ts : list tree) k : lt k (length ts) ->
  exists t, nth_error ts k = Some t /\ slice ts k (S k) = Ok [t] /\ skipn k ts = t :: skipn (S k) ts.
Proof.
  intros L. destruct (nth_error ts k) as [t|] eqn:N; [|apply nth_error_None in N; lia]. exists t. split; [reflexivity|].
  assert (SK : skipn k ts = t :: skipn (S k) ts).
  { clear L. revert ts N. induction k as [|k IH]; intros [|x ts] N; try discriminate; cbn in *; [congruence|]. apply IH, N. }
  split; [|exact SK]. unfold slice. destruct (Nat.leb_spec k (S k)); [|lia]. destruct (Nat.leb_spec (S k) (length ts)); [|lia].
  cbn [andb]. replace (S k - k) with 1 by lia. rewrite SK. reflexivity.
Qed.

(** [right_grouped] with a relation [P] between a pair and its parts. *)
Inductive chained (P : tree -> tree -> tree -> Prop) : list tree -> tree -> Prop :=
| ChainOne t : chained P [t] t
| ChainMore t ts u v : chained P ts v -> P u t v -> chained P (t :: ts) u.
Lemma chained_grouped (P : tree -> tree -> tree -> Prop) ts u :
  (forall u t v, P u t v -> t_exp u = Some (t, v)) -> chained P ts u -> right_grouped ts u.
Proof. intros H C. induction C; econstructor; eauto. Qed.

Section Grouping.
  Variable cfg : config.
  Variable fuel : nat.
  Hypothesis F : fair cfg.
  Hypothesis D : dbg cfg = true.
  Lemma read_error id c e c' : c_read cfg id c = Ok (Fail e, c') -> store_error e.
  Proof.
    unfold c_read, clift. intros E. pose proof (plain_read cfg (c_snap c) (c_delta c) id) as P.
    destruct (read_concept _ _ _ id); try discriminate. injection E as <- _. auto.
  Qed.
  Lemma concrete_error cc c e c' : c_concrete_id cfg cc c = Ok (Fail e, c') -> store_error e.
  Proof.
    unfold c_concrete_id, clift. intros E. pose proof (plain_concrete_id cfg (c_snap c) (c_delta c) cc) as P.
    destruct (concrete_concept_id _ _ _ cc); try discriminate. injection E as <- _. auto.
  Qed.
  Lemma search_error A (f : ctx -> env -> SM A) c e c' : (forall c e, splain (f c e)) ->
    with_search (f c) c = Ok (Fail e, c') -> store_error e.
  Proof.
    intros H E. unfold with_search in E.
    pose proof (H c (new_env (c_delta c) (c_bound c)) (start_state (c_cache c) (c_tick c))) as P.
    destruct (f c _ _) as [[a s]|x| |]; try discriminate. injection E as <- _. auto.
  Qed.
  Lemma combine_error l r c e c' : c_combine cfg fuel l r c = Ok (Fail e, c') -> store_error e.
  Proof.
    apply (search_error _ (fun c e => combine_ast cfg (c_snap c) (ops_of cfg fuel c) e l r)).
    intros x y. apply combine_ast_plain, search_plain.
  Qed.
  Lemma assoc_error t c e c' : c_assoc cfg fuel t c = Ok (Fail e, c') -> store_error e.
  Proof.
    apply (search_error _ (fun c e => o_assoc (ops_of cfg fuel c) e t)).
    intros x y. apply (search_plain cfg (c_snap x) fuel fuel).
  Qed.
  Lemma combine_exp l r c u c' : c_combine cfg fuel l r c = Ok (Val u, c') -> t_exp u = Some (l, r).
  Proof.
    unfold c_combine, with_search. destruct (combine_ast _ _ _ _ _ _ _) as [[a s]| | |] eqn:E; try discriminate.
    intros [= <- _]. unfold combine_ast, sbind in E. apply obind_ok in E. destruct E as ([o s1] & _ & E).
    apply obind_ok in E. destruct E as ([t s2] & E1 & E).
    unfold join, sbind in E1. apply obind_ok in E1. destruct E1 as ([x s3] & _ & [= <- <-]).
    assert (B : forall y, t_exp (bind_pair y l r) = Some (l, r)).
    { intros y. unfold bind_pair, branch. destruct (pair_vars l r). reflexivity. }
    destruct o as [id|]; [|injection E as <- _; apply B].
    unfold slift in E. apply obind_ok in E. destruct E as (y & E & [= <- _]).
    specialize (B (from_text x)). destruct (bind_pair (from_text x) l r) as [|s4 c4 l4 r4 fv bv]; [discriminate B|].
    unfold bind_concept_to_syntax in E. apply obind_ok in E. destruct E as (ty & _ & E).
    destruct (opt_cct_eqb _ _).
    - unfold bind_quantifier in E. rewrite D in E. discriminate E.
    - injection E as <-. exact B.
  Qed.

  Variable P : tree -> tree -> tree -> Prop.
  Hypothesis P_combine : forall l r c u c', c_combine cfg fuel l r c = Ok (Val u, c') -> P u l r.
  Hypothesis P_pair : forall l r, P (new_pair l r) l r.

  Section Fold.
    Variable n : nat.
    Variable ts : list tree.
    Hypothesis L3 : le 3 (length ts).
    Notation parse := (ast_from_syntax_list cfg fuel (S n)).

    Lemma handler_first c r c' :
      try_fold_handler cfg fuel parse ts None (length ts - 1) ARight c = Ok (r, c') ->
      exists t, r = Val (t, length ts - 1) /\ c' = c /\ chained P (skipn (length ts - 1) ts) t.
    Proof.
      destruct (one_token ts (length ts - 1)) as (t & _ & SL & SK); [lia|].
      replace (S (length ts - 1)) with (length ts) in SL, SK by lia.
      unfold try_fold_handler. cbn [option_map slice_tokens]. intros E.
      apply bind_back in E. destruct E as (x & c1 & E1 & E). unfold clift in E1. rewrite SL in E1.
      injection E1 as <- <-. cbn [length] in E. rewrite skipn_all in SK. rewrite SK.
      destruct (Nat.eqb_spec (length ts - 1) 0); [lia|].
      apply bind_back in E. destruct E as (x & c1 & E1 & E). cbn [ast_from_syntax_list] in E1. injection E1 as <- <-.
      injection E as <- <-. exists t. split; [reflexivity|]. split; [reflexivity|constructor].
    Qed.
    Lemma handler_next k e c r c' :
      lt (S k) (length ts) -> chained P (skipn (S k) ts) e ->
      try_fold_handler cfg fuel parse ts (Some (e, S k)) k ARight c = Ok (r, c') ->
      match r with
      | Val (t, k') => k' = k /\ chained P (skipn k ts) t
      | Fail x => store_error x
      end.
    Proof.
      intros LT G. destruct (one_token ts k) as (t & _ & SL & SK); [lia|].
      unfold try_fold_handler. cbn [option_map snd slice_tokens]. intros E.
      apply bind_back in E. destruct E as (x & c1 & E1 & E). unfold clift in E1. rewrite SL in E1.
      injection E1 as <- <-. cbn [length nth] in E.
      apply bind_back in E. destruct E as (x & c1 & E1 & E).
      assert (X : x = Val t /\ c1 = c).
      { destruct (Nat.eqb k 0); cbn in E1; [injection E1 as <- <-; auto|].
        cbn [ast_from_syntax_list] in E1. injection E1 as <- <-. auto. }
      destruct X as [-> ->]. clear E1.
      apply bind_back in E. destruct E as (x & c1 & E1 & E). destruct x as [u|x].
      - injection E as <- <-. split; [reflexivity|]. rewrite SK. eapply ChainMore; [exact G|]. eapply P_combine, E1.
      - destruct E as [-> _]. eapply combine_error, E1.
    Qed.

    Lemma fold_right_rest : forall lps k e c r c',
      desc lps -> (forall i, lt i k -> In i lps) -> (forall i, In i lps -> le i k) ->
      lt k (length ts) -> chained P (skipn k ts) e ->
      fold_right_assoc cfg fuel parse ts (Some k) (Some (e, k)) lps c = Ok (r, c') ->
      match r with
      | Val (min, tail) => min = Some 0 /\ exists t, tail = Some (t, 0) /\ chained P ts t
      | Fail x => store_error x
      end.
    Proof.
      induction lps as [|lp lps IH]; intros k e c r c' DE CO LE LT G E; cbn [fold_right_assoc] in E.
      - injection E as <- <-. destruct k as [|k]; [|destruct (CO k); lia]. split; [reflexivity|]. exists e. auto.
      - destruct DE as [DE1 DE2]. cbn [option_eqb] in E. destruct (Nat.eqb_spec lp k) as [->|N].
        + eapply IH; [exact DE2| | |exact LT|exact G|exact E].
          * intros i I. destruct (CO i I) as [->|]; [lia|assumption].
          * intros i I. apply LE. right. exact I.
        + assert (LP : S lp = k).
          { pose proof (LE lp (or_introl eq_refl)). destruct k as [|k]; [lia|].
            destruct (CO k) as [->|H']; [lia|reflexivity|]. specialize (DE1 _ H'). lia. }
          subst k. apply bind_back in E. destruct E as (x & c1 & E1 & E).
          pose proof (handler_next _ _ _ _ _ LT G E1) as H. destruct x as [[t k']|x].
          * destruct H as [-> G']. eapply (IH lp t); [exact DE2| | |lia|exact G'|exact E].
            -- intros i I. destruct (CO i) as [J|]; [lia|lia|assumption].
            -- exact DE1.
          * destruct E as [-> _]. exact H.
    Qed.
    Lemma fold_right_all lps c r c' :
      desc lps -> (forall i, In i lps <-> lt i (length ts)) ->
      fold_right_assoc cfg fuel parse ts None None lps c = Ok (r, c') ->
      match r with
      | Val (min, tail) => min = Some 0 /\ exists t, tail = Some (t, 0) /\ chained P ts t
      | Fail x => store_error x
      end.
    Proof.
      intros DE CO E. destruct lps as [|lp lps]; [destruct (proj2 (CO 0)); lia|].
      assert (LP : lp = length ts - 1).
      { pose proof (proj1 (CO lp) (or_introl eq_refl)).
        destruct (proj2 (CO (length ts - 1))) as [->|H']; [lia|reflexivity|]. destruct DE as [DE _]. specialize (DE _ H'). lia. }
      subst lp. destruct DE as [DE1 DE2]. cbn [fold_right_assoc option_eqb] in E.
      apply bind_back in E. destruct E as (x & c1 & E1 & E). apply handler_first in E1.
      destruct E1 as (t & -> & -> & G). eapply (fold_right_rest lps (length ts - 1) t); [exact DE2| | | |exact G|exact E].
      - intros i I. destruct (proj2 (CO i)) as [J|]; [lia|lia|assumption].
      - exact DE1.
      - lia.
    Qed.
  End Fold.

  (** ** Which tokens bind weakest: all of them *)
  Lemma shuffle_run A (l : list A) c r c' : c_shuffle cfg l c = Ok (r, c') ->
    exists l', r = Val l' /\ Permutation l' l /\ c_snap c' = c_snap c /\ c_delta c' = c_delta c.
  Proof.
    unfold c_shuffle, with_search, shuffle, sbind, fresh_tick, sret. cbn. intros [= <- <-]. eexists. split; [reflexivity|].
    split; [apply F|auto].
  Qed.
  Lemma positions_from_in ts : forall i j o,
    In (j, o) (positions_from i ts) <-> exists t, nth_error ts (j - i) = Some t /\ le i j /\ o = t_concept t.
  Proof.
    induction ts as [|t ts IH]; intros i j o; cbn [positions_from].
    - split; [intros []|]. intros (t & N & _). destruct (j - i); discriminate.
    - cbn [In]. rewrite IH. split.
      + intros [[= <- <-]|(u & N & L & ->)].
        * exists t. rewrite Nat.sub_diag. auto.
        * exists u. replace (j - i) with (S (j - S i)) by lia. split; [exact N|]. split; [lia|reflexivity].
      + intros (u & N & L & ->). destruct (Nat.eq_dec i j) as [->|NE].
        * rewrite Nat.sub_diag in N. injection N as <-. auto.
        * right. exists u. replace (j - i) with (S (j - S i)) in N by lia. split; [exact N|]. split; [lia|reflexivity].
  Qed.
  Lemma indices_of_in ts c i : In i (indices_of ts c) <-> exists t, nth_error ts i = Some t /\ t_concept t = Some c.
  Proof.
    unfold indices_of. rewrite in_flat_map. split.
    - intros ([j o] & H & K). apply positions_from_in in H. destruct H as (t & N & _ & ->). rewrite Nat.sub_0_r in N.
      destruct (t_concept t) as [x|] eqn:T; cbn in K; [|destruct K]. destruct (cid_eqb_spec x c) as [->|]; [|destruct K].
      destruct K as [<-|[]]. eauto.
    - intros (t & N & T). exists (i, t_concept t). split.
      + apply positions_from_in. exists t. rewrite Nat.sub_0_r. split; [exact N|]. split; [lia|reflexivity].
      + rewrite T. cbn. destruct (cid_eqb_spec c c); [left; reflexivity|contradiction].
  Qed.
  Lemma indices_without_in ts i : In i (indices_without ts) <-> exists t, nth_error ts i = Some t /\ t_concept t = None.
  Proof.
    unfold indices_without. rewrite in_flat_map. split.
    - intros ([j o] & H & K). apply positions_from_in in H. destruct H as (t & N & _ & ->). rewrite Nat.sub_0_r in N.
      destruct (t_concept t) as [x|] eqn:T; cbn in K; [destruct K|]. destruct K as [<-|[]]. eauto.
    - intros (t & N & T). exists (i, t_concept t). split.
      + apply positions_from_in. exists t. rewrite Nat.sub_0_r. split; [exact N|]. split; [lia|reflexivity].
      + rewrite T. left. reflexivity.
  Qed.
  Lemma concept_ids_in ts x : In x (concept_ids ts) <-> exists t, In t ts /\ t_concept t = Some x.
  Proof.
    unfold concept_ids. rewrite in_flat_map. split.
    - intros (t & H & K). exists t. split; [exact H|]. destruct (t_concept t); [destruct K as [->|[]]; reflexivity|destruct K].
    - intros (t & H & K). exists t. split; [exact H|]. rewrite K. left. reflexivity.
  Qed.
  Lemma positions_run ts cs : forall c r c', positions_of cfg ts cs c = Ok (r, c') ->
    exists ps, r = Val ps /\ (forall i, In i ps <-> exists x, In x cs /\ In i (indices_of ts x)) /\
      c_snap c' = c_snap c /\ c_delta c' = c_delta c.
  Proof.
    induction cs as [|x cs IH]; intros c r c' E; cbn [positions_of] in E.
    - injection E as <- <-. exists []. split; [reflexivity|]. split; [|auto]. intros i. split; [intros []|intros (x & [] & _)].
    - apply bind_back in E. destruct E as (here & c1 & E1 & E). apply shuffle_run in E1. destruct E1 as (l & -> & PM & S1 & S2).
      apply bind_back in E. destruct E as (rest & c2 & E2 & E). apply IH in E2. destruct E2 as (ps & -> & Q & S3 & S4).
      injection E as <- <-. exists (l ++ ps)%list. split; [reflexivity|]. split; [|split; congruence].
      intros i. rewrite in_app_iff, Q. split.
      + intros [H|(y & Y & H)].
        * exists x. split; [left; reflexivity|]. eapply Permutation_in; [exact PM|exact H].
        * exists y. split; [right; exact Y|exact H].
      + intros (y & [<-|Y] & H).
        * left. eapply Permutation_in; [apply Permutation_sym, PM|exact H].
        * right. eauto.
  Qed.
  Lemma smem_absent x ids : ~ In x ids -> smem cid_eqb x ids = false.
  Proof.
    intros N. unfold smem. induction ids as [|y ids IH]; [reflexivity|]. cbn. destruct (cid_eqb_spec x y) as [->|].
    - destruct N. left. reflexivity.
    - apply IH. intros H. apply N. right. exact H.
  Qed.
  Lemma related_none ids : forall entries c r c',
    (forall y comp, In (y, comp) entries -> ~ In y ids /\
       (forall m', read_concept cfg (c_snap c) (c_delta c) comp = Ok m' ->
        forall x w, In (x, w) (m_iter_hand_of cfg m' HRight) -> ~ In x ids)) ->
    related_concepts cfg ids entries [] c = Ok (r, c') ->
    c' = c /\ match r with Val l => l = [] | Fail x => store_error x end.
  Proof.
    induction entries as [|[y comp] entries IH]; intros c r c' H E; cbn [related_concepts] in E.
    - injection E as <- <-. auto.
    - destruct (H y comp (or_introl eq_refl)) as [H1 H2]. rewrite (smem_absent _ _ H1) in E.
      apply bind_back in E. destruct E as (m & c1 & E1 & E). pose proof E1 as E0. unfold c_read in E1. apply lift_back in E1.
      destruct E1 as [-> E1]. destruct m as [m|x].
      2:{ destruct E as [-> ->]. split; [reflexivity|exact (read_error _ _ _ _ E0)]. }
      assert (FL : forall l : list (cid * cid), (forall x w, In (x, w) l -> ~ In x ids) ->
        fold_left (fun (acc : list cid) '(l, _) => if smem cid_eqb l ids then sadd cid_eqb l acc else acc) l [] = []).
      { induction l as [|[x w] l IHl]; intros K; [reflexivity|]. cbn [fold_left].
        rewrite (smem_absent x ids (K x w (or_introl eq_refl))). apply IHl. intros x' w' I. apply (K x' w'). right. exact I. }
      rewrite FL in E; [|exact (H2 m E1)].
      eapply IH; [|exact E]. intros y' comp' I. apply H. right. exact I.
  Qed.

  Lemma lowest_all ts c r c' :
    unrelated cfg c ts -> lowest_precedence_info cfg fuel ts c = Ok (r, c') ->
    match r with
    | Val info => (forall i, In i (ts_positions info) <-> lt i (length ts)) /\
                  (forall t, In t (ts_syntax info) -> In t ts) /\
                  (forall t, In t ts -> t_concept t <> None -> ts_syntax info <> [])
    | Fail x => store_error x
    end.
  Proof.
    intros U E. unfold lowest_precedence_info in E.
    apply bind_back in E. destruct E as (p & c1 & E1 & E). pose proof E1 as E0. unfold c_concrete_id in E1. apply lift_back in E1.
    destruct E1 as [-> E1]. destruct p as [p|x].
    2:{ destruct E as [-> ->]. exact (concrete_error _ _ _ _ E0). }
    apply bind_back in E. destruct E as (p' & c1 & E2 & E).
    destruct p as [p|]; [|discriminate E2]. injection E2 as <- <-.
    apply bind_back in E. destruct E as (m & c1 & E2 & E). pose proof E2 as E0'. unfold c_read in E2. apply lift_back in E2.
    destruct E2 as [-> E2]. destruct m as [m|x].
    2:{ destruct E as [-> ->]. exact (read_error _ _ _ _ E0'). }
    apply bind_back in E. destruct E as (rel & c1 & E3 & E). apply related_none in E3.
    2:{ intros y comp I. destruct (U p m E1 E2 y comp I) as [U1 U2]. split.
        - intros K. apply concept_ids_in in K. destruct K as (t & T & K). exact (U1 t T K).
        - intros m' M x w J K. apply concept_ids_in in K. destruct K as (t & T & K). exact (U2 m' M x w J t T K). }
    destruct E3 as [-> E3]. destruct rel as [rel|x].
    2:{ destruct E as [-> ->]. exact E3. }
    subst rel. apply bind_back in E. destruct E as (o & c1 & E4 & E). apply shuffle_run in E4.
    destruct E4 as (l & -> & PM & S1 & S2). apply Permutation_sym, Permutation_nil in PM. subst l.
    cbn [lowest_concepts] in E. apply bind_back in E. destruct E as (x & c2 & E5 & E). injection E5 as <- <-.
    apply bind_back in E. destruct E as (ps & c2 & E5 & E). apply positions_run in E5. destruct E5 as (l & -> & Q & S3 & S4).
    injection E as <- <-. cbn [ts_positions ts_syntax].
    assert (FI : filter (fun c0 : cid => negb (smem cid_eqb c0 [])) (concept_ids ts) = concept_ids ts).
    { clear. induction (concept_ids ts) as [|a l IH]; [reflexivity|]. exact (f_equal (cons a) IH). }
    rewrite FI in Q.
    assert (Q' : forall i, In i l <-> exists t, nth_error ts i = Some t /\ t_concept t <> None).
    { intros i. rewrite Q. split.
      - intros (x & _ & I). apply indices_of_in in I. destruct I as (t & N & T). exists t. split; [exact N|congruence].
      - intros (t & N & T). destruct (t_concept t) as [x|] eqn:X; [|congruence]. exists x. split.
        + apply concept_ids_in. exists t. split; [eapply nth_error_In, N|exact X].
        + apply indices_of_in. eauto. }
    split; [|split].
    - intros i. rewrite in_app_iff, indices_without_in, Q'. split.
      + intros [(t & N & _)|(t & N & _)]; apply nth_error_Some; congruence.
      + intros LT. apply nth_error_Some in LT. destruct (nth_error ts i) as [t|] eqn:N; [|congruence].
        destruct (t_concept t) eqn:T; [right|left]; exists t; split; auto; congruence.
    - intros t H. unfold syntax_at in H. apply in_flat_map in H. destruct H as (i & _ & H).
      destruct (nth_error ts i) as [u|] eqn:N; [|destruct H]. destruct H as [<-|[]]. eapply nth_error_In, N.
    - intros t H T K. apply In_nth_error in H. destruct H as [i N].
      assert (I : In i l) by (apply Q'; eauto).
      assert (J : In t (syntax_at ts l)).
      { unfold syntax_at. apply in_flat_map. exists i. split; [exact I|]. rewrite N. left. reflexivity. }
      rewrite K in J. destruct J.
  Qed.

  Lemma common_run ts : forall a c r c', common_associativity cfg fuel a ts c = Ok (r, c') ->
    a <> Some ALeft ->
    meets_left cfg fuel c ts \/
    match r with
    | Val b => a <> None \/ ts <> [] -> b = Some ARight
    | Fail x => store_error x
    end.
  Proof.
    induction ts as [|t ts IH]; intros a c r c' E N; cbn [common_associativity] in E.
    - injection E as <- <-. right. intros [H|H]; [|congruence]. destruct a as [[]|]; congruence.
    - apply bind_back in E. destruct E as (x & c1 & E1 & E). destruct x as [[]|x].
      + left. eapply MeetsHere, E1.
      + assert (E' : common_associativity cfg fuel (Some ARight) ts c1 = Ok (r, c')).
        { destruct a as [[]|]; [congruence|exact E|exact E]. }
        destruct (IH _ _ _ _ E') as [H|H]; [discriminate| |].
        * left. eapply MeetsLater; [exact E1|exact H].
        * right. destruct r; [|exact H]. intros _. apply H. left. discriminate.
      + destruct E as [-> ->]. right. exact (assoc_error _ _ _ _ E1).
  Qed.

  (** ** The theorem *)
  Lemma chained_list ts c r c' :
    ts <> [] -> (le 3 (length ts) -> exists t, In t ts /\ t_concept t <> None) -> unrelated cfg c ts ->
    parse_list cfg fuel ts c = Ok (r, c') ->
    left_associative cfg fuel c ts \/
    match r with Val u => chained P ts u | Fail x => store_error x end.
  Proof.
    intros NE CO U E. destruct ts as [|t1 [|t2 [|t3 ts]]].
    - congruence.
    - injection E as <- <-. right. constructor.
    - injection E as <- <-. right. apply (ChainMore P t1 [t2] _ t2); [constructor|]. apply P_pair.
    - set (l := t1 :: t2 :: t3 :: ts) in *. destruct CO as (t0 & T0 & N0); [cbn; lia|].
      assert (L3 : le 3 (length l)) by (cbn; lia).
      unfold parse_list in E. replace (length l) with (S (S (S (length ts)))) in E by reflexivity.
      cbn [ast_from_syntax_list] in E. unfold l in E at 1.
      change (cbind (lowest_precedence_info cfg fuel l) (fun info : token_subsequence =>
        match ts_positions info with
        | [] => cfail (LowestPrecendenceNotFound (map display l))
        | _ :: _ =>
          cbind (common_associativity cfg fuel None (ts_syntax info)) (fun a =>
          match a with
          | Some ARight =>
            cbind (fold_right_assoc cfg fuel (ast_from_syntax_list cfg fuel (S (S (S (length ts))))) l None None
                     (heap_pops (ts_positions info))) (fun '(min, tail) =>
            match tail, min with
            | Some (tail, _), Some min =>
              if Nat.eqb min 0 then cret tail
              else cbind (ast_from_syntax_list cfg fuel (S (S (S (length ts)))) (firstn min l)) (fun head =>
                   c_combine cfg fuel head tail)
            | _, _ => cfail AmbiguousExpression
            end)
          | Some ALeft =>
            cbind (heap_iter cfg (ts_positions info)) (fun order =>
            cbind (fold_left_assoc cfg fuel (ast_from_syntax_list cfg fuel (S (S (S (length ts))))) l None order) (fun st =>
            match st with
            | Some (t, _) => cret t
            | None => cfail AmbiguousExpression
            end))
          | None => cfail AmbiguousExpression
          end)
        end) c = Ok (r, c')) in E.
      apply bind_back in E. destruct E as (info & c1 & E1 & E).
      pose proof (lowest_all l c info c1 U E1) as H. destruct info as [info|x].
      2:{ destruct E as [-> _]. auto. }
      destruct H as (PO & SY & SN). specialize (SN t0 T0 N0).
      destruct (ts_positions info) as [|p0 ps] eqn:PS.
      { destruct (proj2 (PO 0)). lia. }
      rewrite <- PS in *. apply bind_back in E. destruct E as (a & c2 & E2 & E).
      destruct (common_run _ _ _ _ _ E2) as [H|H]; [discriminate| |].
      { left. exists info, c1. split; [exact E1|]. split; [exact SY|exact H]. }
      right. destruct a as [a|x]; [|destruct E as [-> _]; exact H].
      rewrite H in E by auto. clear H.
      apply bind_back in E. destruct E as (mt & c3 & E3 & E).
      pose proof (fold_right_all (S (S (length ts))) l L3 _ _ _ _ (heap_pops_desc (ts_positions info))
        (fun i => iff_trans (heap_pops_in _ i) (PO i)) E3) as H.
      destruct mt as [[min tail]|x]; [|destruct E as [-> _]; exact H].
      destruct H as (-> & t & -> & G). injection E as <- _. exact G.
  Qed.
End Grouping.

Lemma grouped cfg fuel ts c r c' : fair cfg -> dbg cfg = true ->
  ts <> [] -> (le 3 (length ts) -> exists t, In t ts /\ t_concept t <> None) -> unrelated cfg c ts ->
  parse_list cfg fuel ts c = Ok (r, c') ->
  left_associative cfg fuel c ts \/
  match r with Val u => right_grouped ts u | Fail x => store_error x end.
Proof.
  intros F D N K U E.
  destruct (chained_list cfg fuel F (fun u t v => t_exp u = Some (t, v)) (combine_exp cfg fuel D)) with (ts := ts) (c := c) (r := r) (c' := c')
    as [H|H]; auto.
  - intros l r0. unfold new_pair, branch. now destruct (pair_vars l r0).
  - right. destruct r as [u|x]; [|exact H]. eapply chained_grouped; [|exact H]. auto.
Qed.
