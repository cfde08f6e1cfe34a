(** Reading a concept through the pending changes agrees with reading it in the store that
    results from applying them. *)
From Verif Require Import Snapshot StoreSpec MapFacts AstFacts StoreFacts StoreInv RangeFacts History.
From Coq Require Import List String.
Import ListNotations.
Local Open Scope zia_scope.

(** ** What recording a change adds to a delta *)
Definition entries (l : layer) (k : cid) : list cdelta :=
  match aget cid_eqb k (d_concept l) with Some c => c | None => [] end.

(** The entries a recorded change adds, in order. *)
Definition touches (id : cid) (x : direct) : list (cid * cdelta) :=
  match x with
  | DNew nd =>
    (id, Direct x) ::
    match nd with
    | NFreeVariable | NBoundVariable | NString _ => []
    | NComposition l r => [(l, Indirect (ILefthandOf id r)); (r, Indirect (IRighthandOf id l))]
    | NLefthand c r _ => [(r, Indirect (IRighthandOf c id)); (c, Indirect (IComposedOf id r))]
    | NRighthand c l _ => [(l, Indirect (ILefthandOf c id)); (c, Indirect (IComposedOf l id))]
    | NDouble c _ => [(c, Indirect (IComposedOf id id))]
    | NReducesTo r => [(r, Indirect (IReducesFrom id))]
    end
  | DCompose c ch =>
    (c, Direct x) ::
    match Delta.before ch with
    | Some (l, r) => [(l, Indirect (INoLongerLefthandOf r)); (r, Indirect (INoLongerRighthandOf l))]
    | None => []
    end ++
    match Delta.after ch with
    | Some (l, r) => [(l, Indirect (ILefthandOf c r)); (r, Indirect (IRighthandOf c l))]
    | None => []
    end
  | DReduce u ch =>
    (u, Direct x) ::
    match Delta.before ch with Some b => [(b, Indirect (INoLongerReducesFrom u))] | None => [] end ++
    match Delta.after ch with Some a => [(a, Indirect (IReducesFrom u))] | None => [] end
  | DRemove c => [(c, Direct x)]
  end.
Definition touching (k : cid) (ts : list (cid * cdelta)) : list cdelta :=
  map snd (filter (fun t => cid_eqb k (fst t)) ts).

Definition same_but_entries (l l' : layer) : Prop :=
  d_num l' = d_num l /\ d_order l' = d_order l /\ d_string l' = d_string l.

Lemma insert_delta_spec ok site id cd l l' :
  insert_delta ok site id cd l = Ok l' ->
  same_but_entries l l' /\ forall k, entries l' k = entries l k ++ touching k [(id, cd)].
Proof.
  unfold insert_delta, entries, touching. intros H.
  assert (A : forall l' v, l' = Layer (d_string l) (d_num l) (d_order l) (aset cid_eqb id v (d_concept l)) ->
            v = entries l id ++ [cd] ->
            same_but_entries l l' /\ forall k, entries l' k = entries l k ++ touching k [(id, cd)]).
  { intros l1 v -> Hv. split; [repeat split|]. intros k. unfold entries, touching in *. cbn.
    rewrite (aget_aset _ cid_eqb_spec). destruct (cid_eqb_spec k id) as [->|N]; cbn.
    - exact Hv.
    - rewrite app_nil_r. reflexivity. }
  unfold entries in A. destruct (aget cid_eqb id (d_concept l)) as [cds|] eqn:E.
  - destruct (unsnoc cds) as [[a b]|]; [|discriminate].
    destruct (ok b); [|discriminate]. injection H as <-.
    eapply A; [reflexivity|]. reflexivity.
  - injection H as <-. eapply A; [reflexivity|]. reflexivity.
Qed.

Definition inserts (ts : list (cid * cdelta)) (l l' : layer) : Prop :=
  same_but_entries l l' /\ forall k, entries l' k = entries l k ++ touching k ts.
Lemma inserts_nil l : inserts [] l l.
Proof. split; [repeat split|]. intros k. cbn. rewrite app_nil_r. reflexivity. Qed.
Lemma inserts_app ts us a b c : inserts ts a b -> inserts us b c -> inserts (ts ++ us) a c.
Proof.
  intros ((A1 & A2 & A3) & A4) ((B1 & B2 & B3) & B4). split; [repeat split; congruence|].
  intros k. rewrite B4, A4. unfold touching. rewrite filter_app, map_app, app_assoc. reflexivity.
Qed.
Lemma inserts_one ok site id cd l l' : insert_delta ok site id cd l = Ok l' -> inserts [(id, cd)] l l'.
Proof. intros H. apply insert_delta_spec in H. exact H. Qed.
Lemma inserts_existing id cd l l' : insert_existing id cd l = Ok l' -> inserts [(id, cd)] l l'.
Proof. apply inserts_one. Qed.

Definition new_id (l : layer) (x : direct) : cid :=
  match x with
  | DNew _ => Uncommitted (d_num l)
  | DCompose c _ => c | DReduce c _ => c | DRemove c => c
  end.
Definition new_num (l : layer) (x : direct) : nat :=
  match x with DNew _ => S (d_num l) | _ => d_num l end.
Definition new_string (l : layer) (x : direct) : list (text * change cid) :=
  match x with
  | DNew (NString s) =>
    aset text_eqb s
      (match aget text_eqb s (d_string l) with
       | Some (Remove b) => Update b (new_id l x)
       | _ => Create (new_id l x)
       end) (d_string l)
  | _ => d_string l
  end.

Ltac pinv :=
  repeat first [oinv1|match goal with H : (_, _) = (_, _) |- _ => injection H; clear H; intros end];
  subst.
Ltac ins :=
  repeat match goal with
  | H : insert_existing _ _ _ = Ok _ |- _ => apply inserts_existing in H
  | H : inserts ?a ?x ?y, K : inserts ?b ?y ?z |- _ =>
    pose proof (inserts_app _ _ _ _ _ H K); clear H K
  end.

Lemma update_layer_spec x l id l' :
  update_layer x l = Ok (id, l') ->
  id = new_id l x /\ d_num l' = new_num l x /\ d_string l' = new_string l x /\
  d_order l' = d_order l ++ [(id, x)] /\
  (forall s, x = DNew (NString s) -> forall c, aget text_eqb s (d_string l) = Some c ->
             exists b, c = Remove b) /\
  forall k, entries l' k = entries l k ++ touching k (touches id x).
Proof.
  assert (K : forall id' l1 (l2 : layer), id' = new_id l x ->
     inserts (touches id' x) (Layer (d_string l) (new_num l x) (d_order l) (d_concept l)) l1 ->
     d_num l2 = d_num l1 -> d_order l2 = d_order l1 -> d_concept l2 = d_concept l1 ->
     d_string l2 = new_string l x ->
     (forall s, x = DNew (NString s) -> forall c, aget text_eqb s (d_string l) = Some c ->
             exists b, c = Remove b) ->
     Ok (id', push_order id' x l2) = Ok (id, l') ->
     id = new_id l x /\ d_num l' = new_num l x /\ d_string l' = new_string l x /\
     d_order l' = d_order l ++ [(id, x)] /\
     (forall s, x = DNew (NString s) -> forall c, aget text_eqb s (d_string l) = Some c ->
             exists b, c = Remove b) /\
     forall k, entries l' k = entries l k ++ touching k (touches id x)).
  { intros id' l1 l2 Ei ((A1 & A2 & A3) & A4) B1 B2 B3 B4 B5 [= <- <-]. cbn in *.
    split; [exact Ei|]. split; [congruence|]. split; [exact B4|]. split; [congruence|].
    split; [exact B5|]. intros k. specialize (A4 k). unfold entries in *. cbn in *. rewrite B3. exact A4. }
  assert (Eta : Layer (d_string l) (d_num l) (d_order l) (d_concept l) = l) by (destruct l; reflexivity).
  unfold update_layer. destruct x as [nd|c ch|u ch|c].
  - unfold update_new, insert_new. intros H. pinv.
    match goal with H : insert_delta _ _ _ _ _ = Ok _ |- _ => apply inserts_one in H; rename H into I0 end.
    destruct nd as [s| | | | | | |]; pinv; ins;
      try (match goal with H : inserts _ _ _ |- _ =>
             exact (K _ _ _ eq_refl H eq_refl eq_refl eq_refl (proj2 (proj2 (proj1 H)))
                      ltac:(discriminate) eq_refl) end).
    match type of I0 with inserts _ _ ?y => assert (D : d_string y = d_string l) by apply I0 end.
    match goal with E : match aget _ _ _ with _ => _ end = _ |- _ => rewrite D in E end.
    destruct (aget text_eqb s (d_string l)) as [[a|b a|b]|] eqn:A; try discriminate; pinv;
      (eapply (K _ _ _ eq_refl I0); [| | | | |reflexivity]; [reflexivity..| |];
        [cbn; rewrite ?A, ?D; reflexivity|];
        intros ? [= <-] ? ; rewrite A; first [discriminate|intros [= <-]; eauto]).
  - cbn [new_num] in K. rewrite Eta in K. intros H. destruct ch as [[lf rg]|[lf rg] [lf' rg']|[lf rg]]; cbn in H; pinv; ins;
      match goal with H : inserts _ _ _ |- _ =>
             exact (K _ _ _ eq_refl H eq_refl eq_refl eq_refl (proj2 (proj2 (proj1 H)))
                      ltac:(discriminate) eq_refl) end.
  - cbn [new_num] in K. rewrite Eta in K. intros H. destruct ch as [r|b r|r]; cbn in H; pinv; ins;
      match goal with H : inserts _ _ _ |- _ =>
             exact (K _ _ _ eq_refl H eq_refl eq_refl eq_refl (proj2 (proj2 (proj1 H)))
                      ltac:(discriminate) eq_refl) end.
  - cbn [new_num] in K. rewrite Eta in K. intros H. pinv; ins;
      match goal with H : inserts _ _ _ |- _ =>
             exact (K _ _ _ eq_refl H eq_refl eq_refl eq_refl (proj2 (proj2 (proj1 H)))
                      ltac:(discriminate) eq_refl) end.
Qed.

(** ** Committed and pending views *)
Definition strip {I} (sp : specific I) : specific I :=
  match sp with Abstract (Comp l r _ _) red => Abstract (Comp l r [] []) red | sp => sp end.
(** Everything but the recorded variables; [h] says whether the hands matter. *)
Definition stripc (h : bool) (c : concept nat) : concept nat :=
  Concept (c_id c) (if h then lefthand_of c else []) (if h then righthand_of c else [])
          (reduces_from c) (strip (c_spec c)).

Lemma insert_into_ok {I} eqb dbg (k v : I) m m' :
  insert_into eqb dbg k v m = Ok m' -> m' = aset eqb k v m.
Proof. unfold insert_into. intros H. oinv. subst. reflexivity. Qed.

Section Sim.
  Variable cfg : config.
  Variable snap : snapshot.
  Local Notation n0 := (size snap).

  (** The number a pending identifier gets when the changes are applied. *)
  Definition rho (id : cid) : nat :=
    match id with Committed n => n | Uncommitted u => n0 + u end.
  (** Identifiers in use when [num] concepts are pending. *)
  Definition dom (num : nat) (id : cid) : Prop :=
    match id with Committed n => n < n0 | Uncommitted u => u < num end.
  Lemma rho_inj num a b : dom num a -> dom num b -> rho a = rho b -> a = b.
  Proof. destruct a, b; cbn; intros; f_equal; lia. Qed.
  Lemma rho_eqb num a b : dom num a -> dom num b -> cid_eqb a b = Nat.eqb (rho a) (rho b).
  Proof.
    intros A B. destruct (cid_eqb_spec a b) as [->|N]; [rewrite Nat.eqb_refl; reflexivity|].
    symmetry. apply Nat.eqb_neq. intros E. apply N. eapply rho_inj; eauto.
  Qed.
  Lemma rho_lt num a : dom num a -> rho a < n0 + num.
  Proof. destruct a; cbn; lia. Qed.
  Lemma rho_surj num n : n < n0 + num -> exists a, dom num a /\ rho a = n.
  Proof.
    intros L. destruct (Nat.lt_ge_cases n n0).
    - exists (Committed n). auto.
    - exists (Uncommitted (n - n0)). cbn. lia.
  Qed.
  Lemma dom_mono num num' a : num' >= num -> dom num a -> dom num' a.
  Proof. destruct a; cbn; lia. Qed.
  Lemma dom_below num a : dom num a -> below n0 a.
  Proof. destruct a; cbn; auto. Qed.

  (** The committed counterpart of one entry of a delta.  Entries about composition changes
      that drop hands are only used when hands do not matter. *)
  Definition co_step (h : bool) (c : concept nat) (cd : cdelta) : concept nat :=
    match cd with
    | Indirect (IComposedOf l r) =>
      match c_spec c with
      | Abstract _ red => set_spec c (Abstract (Comp (rho l) (rho r) [] []) red)
      | _ => c
      end
    | Indirect (ILefthandOf x r) =>
      if h then set_left c (aset Nat.eqb (rho r) (rho x) (lefthand_of c)) else c
    | Indirect (IRighthandOf x l) =>
      if h then set_right c (aset Nat.eqb (rho l) (rho x) (righthand_of c)) else c
    | Indirect (INoLongerLefthandOf _) | Indirect (INoLongerRighthandOf _) => c
    | Indirect (IReducesFrom u) => set_from c (sadd Nat.eqb (rho u) (reduces_from c))
    | Indirect (INoLongerReducesFrom u) => set_from c (sdel Nat.eqb (rho u) (reduces_from c))
    | Direct (DReduce _ ch) =>
      match c_spec c with
      | Abstract k _ => set_spec c (Abstract k (option_map rho (Delta.after ch)))
      | _ => c
      end
    | Direct (DCompose _ ch) =>
      match c_spec c with
      | Abstract _ red =>
        set_spec c (Abstract (match Delta.after ch with
                              | Some (l, r) => Comp (rho l) (rho r) [] []
                              | None => Leaf Constant
                              end) red)
      | _ => c
      end
    | Direct _ => c
    end.

  (** Only composition updates and removals upset the hands. *)
  Definition keeps_hands (x : direct) : Prop :=
    match x with DCompose _ (Create _) => True | DCompose _ _ => False | _ => True end.

  Definition needs_abstract (cd : cdelta) : bool :=
    match cd with Indirect (IComposedOf _ _) | Direct (DReduce _ _) => true | _ => false end.
  Definition abstract (c : concept nat) : Prop := exists k red, c_spec c = Abstract k red.
  Definition ids_of (cd : cdelta) : list cid :=
    match cd with
    | Indirect (IComposedOf a b) | Indirect (ILefthandOf a b) | Indirect (IRighthandOf a b) => [a; b]
    | Indirect (INoLongerLefthandOf a) | Indirect (INoLongerRighthandOf a)
    | Indirect (IReducesFrom a) | Indirect (INoLongerReducesFrom a) => [a]
    | Direct (DReduce a ch) =>
      a :: match Delta.before ch with Some b => [b] | None => [] end ++
           match Delta.after ch with Some b => [b] | None => [] end
    | Direct (DCompose a _) => [a]
    | Direct _ => []
    end.

  Section Step.
    Variable dbg : bool.
    Variable s : snapshot.
    Variable num : nat.
    Hypothesis SZ : size s = n0 + num.
    Hypothesis PV : forall u, aget Nat.eqb u (prev_unc s) = if Nat.ltb u num then Some (n0 + u) else None.

    Lemma com_rho id k : below n0 id -> to_committed s id = Ok k -> k = rho id /\ dom num id.
    Proof.
      destruct id as [n|u]; cbn.
      - intros B [= <-]. auto.
      - intros _ E. apply unwrap_ok in E. rewrite PV in E.
        destruct (Nat.ltb_spec u num); [|discriminate]. injection E as <-. auto.
    Qed.

    Definition the_id (x : direct) : cid :=
      match x with
      | DNew _ => Uncommitted num
      | DCompose c _ => c | DReduce c _ => c | DRemove c => c
      end.

    Ltac use_com G :=
      cbn in G;
      repeat match goal with
      | H : _ /\ _ |- _ => destruct H
      | H : good (_, _) |- _ => destruct H; cbn [fst snd] in *
      end;
      repeat match goal with
      | H : to_committed s ?x = Ok ?k |- _ =>
        let D := fresh "D" in
        destruct (com_rho x k ltac:(assumption) H) as [-> D]; clear H
      end.

    Lemma stripc_left h c m : stripc h (set_left c m) = if h then set_left (stripc h c) m else stripc h c.
    Proof. destruct h; reflexivity. Qed.
    Lemma stripc_right h c m : stripc h (set_right c m) = if h then set_right (stripc h c) m else stripc h c.
    Proof. destruct h; reflexivity. Qed.
    Lemma stripc_from h c m : stripc h (set_from c m) = set_from (stripc h c) m.
    Proof. reflexivity. Qed.
    Lemma stripc_spec h c sp : stripc h (set_spec c sp) = set_spec (stripc h c) (strip sp).
    Proof. reflexivity. Qed.

    Lemma effect_old h x us s2 k c :
      effect dbg s (the_id x) x us -> overrides us (base_of s x) s2 ->
      good_direct (below n0) x -> (h = true -> keeps_hands x) -> dom num k ->
      lookup s (rho k) = Some c ->
      exists c2, lookup s2 (rho k) = Some c2 /\
        stripc h c2 = fold_left (co_step h) (touching k (touches (the_id x) x)) (stripc h c).
    Proof.
      intros E [_ O] G KH Dk L.
      assert (NN : Nat.eqb (rho k) (List.length (concepts s)) = false).
      { apply Nat.eqb_neq. apply lookup_lt in L. lia. }
      assert (B : lookup (base_of s x) (rho k) = Some c).
      { destruct x; cbn; auto. rewrite lookup_grown, NN. exact L. }
      assert (NK : cid_eqb k (Uncommitted num) = false).
      { destruct (cid_eqb_spec k (Uncommitted num)); [|reflexivity]. subst. cbn in Dk. lia. }
      assert (RN : List.length (concepts s) = n0 + num) by exact SZ.
      rewrite O, B.
      assert (GL : forall j cj, lookup (grown s) j = Some cj ->
                   rho k = j -> cj = c).
      { intros j cj Lj <-. rewrite lookup_grown, NN, L in Lj. congruence. }
      assert (LL : forall j cj, lookup s j = Some cj -> rho k = j -> cj = c).
      { intros j cj Lj <-. congruence. }
      remember (the_id x) as id eqn:EI.
      destruct E; cbn [the_id] in EI; try (injection EI as ->); try subst i; use_com G; unfold touching; cbn [touches the_id filter fst Delta.before Delta.after app];
        repeat match goal with
        | D : dom num ?j |- context [cid_eqb k ?j] => rewrite (rho_eqb num k j Dk D)
        end; rewrite ?NK; cbn [map snd aget]; rewrite ?NN;
        repeat match goal with
        | |- context [Nat.eqb (rho k) ?j] => destruct (Nat.eqb_spec (rho k) j)
        end;
        repeat match goal with
        | H : lookup (grown s) ?j = Some ?cj, K : rho k = ?j |- _ => apply GL in H; [|exact K]
        | H : lookup s ?j = Some ?cj, K : rho k = ?j |- _ => apply LL in H; [|exact K]
        end; subst;
        repeat match goal with H : NoDup (_ :: _) |- _ => inversion H; clear H; subst end;
        try (exfalso; cbn in *; intuition congruence);
        (eexists; split; [reflexivity|]); cbn [fold_left map snd filter];
        rewrite ?stripc_left, ?stripc_right, ?stripc_from, ?stripc_spec;
        repeat match goal with H : insert_into _ _ _ _ _ = Ok _ |- _ => apply insert_into_ok in H; subst end;
        try reflexivity;
        cbn [co_step rho]; rewrite <- ?RN;
        try (destruct h; [try reflexivity; try (destruct (KH eq_refl))|reflexivity]; fail);
        cbn [stripc c_spec set_spec];
        repeat match goal with H : c_spec _ = _ |- _ => rewrite H; clear H end;
        try reflexivity;
        match goal with k : composition nat |- _ => destruct k; reflexivity end.
    Qed.

    (** Which concepts are touched, and how. *)
    Lemma effect_touches x us :
      effect dbg s (the_id x) x us -> good_direct (below n0) x ->
      forall k cd, In (k, cd) (touches (the_id x) x) ->
        (k = Uncommitted num /\ (exists nd, x = DNew nd /\ cd = Direct x)) \/
        (dom num k /\ Forall (dom (match x with DNew _ => S num | _ => num end)) (ids_of cd) /\
         (forall nd, cd <> Direct (DNew nd)) /\ (forall i, cd <> Direct (DRemove i)) /\
         (needs_abstract cd = true -> forall c, lookup s (rho k) = Some c -> abstract c) /\
         (keeps_hands x -> match cd with
                           | Indirect (INoLongerLefthandOf _)
                           | Indirect (INoLongerRighthandOf _) => False | _ => True end)).
    Proof.
      intros E G k cd I.
      assert (RN : List.length (concepts s) = n0 + num) by exact SZ.
      assert (GL : forall j cj, dom num j -> lookup (grown s) (rho j) = Some cj ->
                   lookup s (rho j) = Some cj).
      { intros j cj Dj Lj. rewrite lookup_grown in Lj.
        destruct (Nat.eqb_spec (rho j) (List.length (concepts s))); [|exact Lj].
        apply rho_lt in Dj. lia. }
      assert (DM : forall j, dom num j -> dom (S num) j).
      { intros j. apply dom_mono. lia. }
      assert (DN : dom (S num) (Uncommitted num)) by (cbn; lia).
      remember (the_id x) as id eqn:EI.
      destruct E; cbn [the_id] in EI; try (injection EI as ->); try subst i; use_com G;
        cbn [touches Delta.before Delta.after app In] in I;
        repeat match goal with
        | H : _ \/ _ |- _ => destruct H
        | H : False |- _ => destruct H
        | H : (_, _) = (_, _) |- _ => injection H; clear H; intros; subst
        end;
        try (left; split; [reflexivity|eexists; split; reflexivity]);
        right;
        repeat match goal with
        | H : lookup (grown s) (rho ?j) = Some _ |- _ => apply GL in H; [|assumption]
        end;
        (split; [assumption|]); (split; [repeat constructor; auto|]);
        (split; [discriminate|]); (split; [discriminate|]);
        (split; [cbn; try discriminate; intros _ cc' LL'|cbn; tauto]);
        match goal with
        | H : lookup s ?j = Some ?c, K : lookup s ?j = Some ?c' |- abstract ?c' =>
          rewrite H in K; injection K as <-; eexists; eexists; eassumption
        end.
    Qed.

    (** The new concept. *)
    Lemma effect_new nd us s2 :
      effect dbg s (Uncommitted num) (DNew nd) us -> overrides us (grown s) s2 ->
      good_direct (below n0) (DNew nd) ->
      exists c2, lookup s2 (n0 + num) = Some c2 /\ c_id c2 = n0 + num /\ reduces_from c2 = [] /\
        let c := concept_of_new (Uncommitted num) nd in
        strip (c_spec c2) =
          match c_spec c with
          | Concrete cc => Concrete cc
          | StringPart t => StringPart t
          | Abstract k red =>
            Abstract (match k with Comp l r _ _ => Comp (rho l) (rho r) [] [] | Leaf ch => Leaf ch end)
                     (option_map rho red)
          end /\
        lefthand_of c2 = map (fun p => (rho (fst p), rho (snd p))) (lefthand_of c) /\
        righthand_of c2 = map (fun p => (rho (fst p), rho (snd p))) (righthand_of c) /\
        Forall (dom num) match nd with
                         | NComposition l r => [l; r]
                         | NLefthand a b _ | NRighthand a b _ => [a; b]
                         | NDouble a _ | NReducesTo a => [a]
                         | _ => []
                         end.
    Proof.
      intros E [_ O] G.
      assert (RN : List.length (concepts s) = n0 + num) by exact SZ.
      assert (B : lookup (grown s) (n0 + num) = Some (make_free_variable (n0 + num))).
      { rewrite lookup_grown, RN, Nat.eqb_refl. reflexivity. }
      rewrite <- RN in *.
      remember (Uncommitted num) as id eqn:EI. remember (DNew nd) as x eqn:EX.
      destruct E; try discriminate EX; injection EX as <-; try (injection EI as ->); use_com G;
        (eexists; split;
          [rewrite O; cbn [aget base_of]; rewrite Nat.eqb_refl, B; reflexivity|]);
        cbn; rewrite <- ?RN; repeat (split; [try reflexivity; try (destruct cc; reflexivity)|]);
        repeat constructor; assumption.
    Qed.
  End Step.

End Sim.
