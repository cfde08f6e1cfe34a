(** What each change does to the committed store, and the invariants it keeps. *)
From Verif Require Import Snapshot StoreSpec MapFacts AstFacts.
From Coq Require Import List String.
Import ListNotations.
Local Open Scope zia_scope.

(** ** Small facts about maps, sets and lists *)
Section AssocFacts.
  Context {K V : Type} (eqb : K -> K -> bool) (eqb_spec : forall a b, reflect (a = b) (eqb a b)).

  Lemma aget_aset (m : list (K * V)) k v k' :
    aget eqb k' (aset eqb k v m) = if eqb k' k then Some v else aget eqb k' m.
  Proof.
    induction m as [|[a w] m IH]; cbn; [reflexivity|].
    destruct (eqb_spec k a) as [->|N]; cbn.
    - destruct (eqb_spec k' a); reflexivity.
    - destruct (eqb_spec k' a) as [->|]; [|exact IH].
      destruct (eqb_spec a k); [congruence|reflexivity].
  Qed.
  Lemma aget_adel (m : list (K * V)) k k' :
    aget eqb k' (adel eqb k m) = if eqb k' k then None else aget eqb k' m.
  Proof.
    induction m as [|[a w] m IH]; cbn; [destruct (eqb k' k); reflexivity|].
    destruct (eqb_spec k a) as [E|N]; cbn.
    - rewrite IH, <- E. destruct (eqb_spec k' k); reflexivity.
    - destruct (eqb_spec k' a) as [->|]; [|exact IH].
      destruct (eqb_spec a k); [congruence|reflexivity].
  Qed.
  Lemma aget_in (m : list (K * V)) k v : aget eqb k m = Some v -> In (k, v) m.
  Proof.
    induction m as [|[a w] m IH]; cbn; [discriminate|].
    destruct (eqb_spec k a) as [->|]; [intros [= ->]; auto|auto].
  Qed.
  Lemma in_aset (m : list (K * V)) k v k' v' :
    In (k', v') (aset eqb k v m) -> (k' = k /\ v' = v) \/ In (k', v') m.
  Proof.
    induction m as [|[a w] m IH]; cbn.
    - intros [[= <- <-]|[]]; auto.
    - destruct (eqb_spec k a) as [->|N]; cbn.
      + intros [[= <- <-]|H]; auto.
      + intros [H|H]; auto. destruct (IH H); auto.
  Qed.
  Lemma aset_in (m : list (K * V)) k v : In (k, v) (aset eqb k v m).
  Proof.
    induction m as [|[a w] m IH]; cbn; auto.
    destruct (eqb k a); cbn; auto.
  Qed.
  Lemma aset_keeps (m : list (K * V)) k v k' v' :
    In (k', v') m -> k' <> k -> In (k', v') (aset eqb k v m).
  Proof.
    induction m as [|[a w] m IH]; cbn; [tauto|].
    intros [[= <- <-]|H] N; destruct (eqb_spec k a); cbn; subst; auto; congruence.
  Qed.
End AssocFacts.

Section SetFacts.
  Context {K : Type} (eqb : K -> K -> bool) (eqb_spec : forall a b, reflect (a = b) (eqb a b)).
  Lemma smem_in k s : smem eqb k s = true <-> In k s.
  Proof.
    unfold smem. rewrite existsb_exists. split.
    - intros (x & I & E). destruct (eqb_spec k x); congruence.
    - intros I. exists k. split; auto. destruct (eqb_spec k k); congruence.
  Qed.
  Lemma smem_notin k s : smem eqb k s = false <-> ~ In k s.
  Proof. rewrite <- smem_in. destruct (smem eqb k s); split; congruence. Qed.
  Lemma sadd_in k s x : In x (sadd eqb k s) <-> x = k \/ In x s.
  Proof.
    unfold sadd. destruct (smem eqb k s) eqn:E.
    - apply smem_in in E. split; [auto|intros [->|]; auto].
    - rewrite in_app_iff. cbn. intuition.
  Qed.
  Lemma sdel_in k s x : In x (sdel eqb k s) <-> x <> k /\ In x s.
  Proof.
    unfold sdel. rewrite filter_In. destruct (eqb_spec k x); cbn; intuition congruence.
  Qed.
End SetFacts.

Lemma nodupb_spec l : nodupb l = true <-> NoDup l.
Proof.
  induction l as [|a l IH]; cbn; [split; auto using NoDup_nil|].
  rewrite andb_true_iff, negb_true_iff, IH, (smem_notin _ Nat.eqb_spec).
  split; [intros []; constructor; auto|inversion 1; auto].
Qed.

Lemma length_upd_nth {A} i (f : A -> A) l : List.length (upd_nth i f l) = List.length l.
Proof. revert i. induction l as [|x l IH]; intros [|i]; cbn; auto. Qed.
Lemma nth_upd_nth {A} i (f : A -> A) l j :
  nth_error (upd_nth i f l) j =
  if Nat.eqb j i then option_map f (nth_error l j) else nth_error l j.
Proof.
  revert i j. induction l as [|x l IH]; intros [|i] [|j]; cbn; auto;
    try (destruct (Nat.eqb j i); reflexivity).
Qed.

(** ** Inverting [obind] *)
Lemma obind_ok {A B} (m : outcome A) (f : A -> outcome B) b :
  obind m f = Ok b -> exists a, m = Ok a /\ f a = Ok b.
Proof. destruct m; cbn; try discriminate. eauto. Qed.
Lemma omap_ok {A B} (f : A -> B) (m : outcome A) b :
  omap f m = Ok b -> exists a, m = Ok a /\ b = f a.
Proof. destruct m; cbn; try discriminate. intros [= <-]. eauto. Qed.
Lemma unwrap_ok {A} (o : option A) site a : unwrap o site = Ok a <-> o = Some a.
Proof. destruct o; cbn; split; congruence. Qed.
Lemma unwrap_res_ok {A} (m : outcome A) site a : unwrap_res m site = Ok a <-> m = Ok a.
Proof. destruct m; cbn; split; congruence. Qed.

Ltac oinv1 :=
  match goal with
  | H : obind _ _ = Ok _ |- _ =>
    let x := fresh "x" in let E := fresh "E" in
    apply obind_ok in H; destruct H as (x & E & H)
  | H : omap _ _ = Ok _ |- _ =>
    let x := fresh "x" in let E := fresh "E" in
    apply omap_ok in H; destruct H as (x & E & H)
  | H : unwrap _ _ = Ok _ |- _ => apply unwrap_ok in H
  | H : unwrap_res _ _ = Ok _ |- _ => apply unwrap_res_ok in H
  | H : Ok _ = Ok _ |- _ => injection H; clear H; intros
  | H : Panic _ = Ok _ |- _ => discriminate H
  | H : Err _ = Ok _ |- _ => discriminate H
  | H : OutOfFuel = Ok _ |- _ => discriminate H
  | x : unit |- _ => destruct x
  | x : (_ * _)%type |- _ => destruct x
  end.
Ltac oinv := repeat oinv1.

(** ** Lookups *)
Lemma lookup_lt s n c : lookup s n = Some c -> n < List.length (concepts s).
Proof. unfold lookup. intros H. apply nth_error_Some. congruence. Qed.
Lemma lookup_some s n : n < List.length (concepts s) -> exists c, lookup s n = Some c.
Proof.
  intros H. apply nth_error_Some in H. unfold lookup.
  destruct (nth_error _ _); [eauto|congruence].
Qed.
Lemma lookup_put c s i :
  lookup (put c s) i =
  if Nat.eqb i (c_id c) then option_map (fun _ => c) (lookup s i) else lookup s i.
Proof. unfold lookup, put. cbn. apply nth_upd_nth. Qed.
Lemma length_put c s : List.length (concepts (put c s)) = List.length (concepts s).
Proof. apply length_upd_nth. Qed.

(** The store while a concept with dependencies is being committed: the new slot holds a
    placeholder. *)
Definition grown (s : snapshot) : snapshot :=
  set_concepts s (concepts s ++ [make_free_variable (List.length (concepts s))]).
Lemma lookup_grown s i :
  lookup (grown s) i =
  if Nat.eqb i (List.length (concepts s)) then Some (make_free_variable i) else lookup s i.
Proof.
  unfold lookup, grown. cbn. destruct (Nat.eqb_spec i (List.length (concepts s))) as [->|N].
  - rewrite nth_error_app2, Nat.sub_diag by auto. reflexivity.
  - destruct (Nat.lt_ge_cases i (List.length (concepts s))) as [L|L].
    + rewrite nth_error_app1 by auto. reflexivity.
    + transitivity (@None (concept nat)); [|symmetry]; apply nth_error_None;
        rewrite ?app_length; cbn; lia.
Qed.
Lemma grown_self_numbered s : self_numbered s -> self_numbered (grown s).
Proof.
  intros W n c. rewrite lookup_grown. destruct (Nat.eqb_spec n (List.length (concepts s))).
  - intros [= <-]. reflexivity.
  - apply W.
Qed.

Lemma get_all_spec s ns cs :
  get_all s ns = Some cs -> Forall2 (fun n c => lookup s n = Some c) ns cs.
Proof.
  revert cs. induction ns as [|n ns IH]; cbn; intros cs.
  - intros [= <-]. constructor.
  - destruct (nth_error (concepts s) n) eqn:E; [|discriminate].
    destruct (get_all s ns) eqn:G; [|discriminate]. intros [= <-]. constructor; auto.
Qed.
Lemma get_disjoint_spec s ns cs :
  get_disjoint s ns = Some cs -> NoDup ns /\ Forall2 (fun n c => lookup s n = Some c) ns cs.
Proof.
  unfold get_disjoint. destruct (nodupb ns) eqn:E; [|discriminate].
  intros H. split; [apply nodupb_spec; auto|apply get_all_spec; auto].
Qed.
Lemma all_committed_spec s ids ns :
  all_committed s ids = Ok ns -> Forall2 (fun i n => to_committed s i = Ok n) ids ns.
Proof.
  revert ns. induction ids as [|i ids IH]; cbn; intros ns H; oinv; subst; constructor; auto.
Qed.

(** [s'] is [base] with some entries replaced. *)
Definition overrides (us : list (nat * concept nat)) (base s' : snapshot) : Prop :=
  List.length (concepts s') = List.length (concepts base) /\
  forall i, lookup s' i = match aget Nat.eqb i us with
                          | Some c => option_map (fun _ => c) (lookup base i)
                          | None => lookup base i end.
Lemma overrides_nil s : overrides [] s s.
Proof. split; auto. Qed.
Lemma overrides_put us base s' c :
  overrides us base s' -> overrides ((c_id c, c) :: us) base (put c s').
Proof.
  intros [L H]. split; [rewrite length_put; auto|].
  intros i. rewrite lookup_put. cbn [aget]. rewrite H.
  destruct (Nat.eqb i (c_id c)); [|reflexivity].
  destruct (aget Nat.eqb i us); cbn; destruct (lookup base i); reflexivity.
Qed.
Lemma overrides_upd us base s' n c :
  overrides us base s' ->
  overrides ((n, c) :: us) base (set_concepts s' (upd_nth n (fun _ => c) (concepts s'))).
Proof.
  intros [L H]. split; [cbn; rewrite length_upd_nth; auto|].
  intros i. unfold lookup at 1. cbn [concepts set_concepts]. rewrite nth_upd_nth.
  cbn [aget]. unfold lookup in H at 1. rewrite H.
  destruct (Nat.eqb i n); [|reflexivity].
  destruct (aget Nat.eqb i us); cbn; destruct (lookup base i); reflexivity.
Qed.
Lemma overrides_same us base s' s'' :
  overrides us base s' -> concepts s'' = concepts s' -> overrides us base s''.
Proof. intros [L H] E. unfold overrides, lookup in *. rewrite E. auto. Qed.

Section Effect.
  Variable dbg : bool.
  Variable s : snapshot.
  Local Notation n := (List.length (concepts s)).
  Local Notation at_ i c := (lookup s i = Some c).
  Local Notation near i c := (lookup (grown s) i = Some c).
  Local Notation com i k := (to_committed s i = Ok k).
  Local Notation ins := (insert_into Nat.eqb dbg).

  (** The concepts a successful change writes, new concept first. *)
  Inductive effect : cid -> direct -> list (nat * concept nat) -> Prop :=
  | EfFree u : effect (Uncommitted u) (DNew NFreeVariable) [(n, make_free_variable n)]
  | EfBound u : effect (Uncommitted u) (DNew NBoundVariable) [(n, make_bound_variable n)]
  | EfString u t : effect (Uncommitted u) (DNew (NString t)) [(n, plain n (StringPart t))]
  | EfComposition u l r nl nr cl cr lm rm fv bv :
      com l nl -> com r nr -> nl <> nr -> near nl cl -> near nr cr ->
      ins nr n (lefthand_of cl) = Ok lm -> ins nl n (righthand_of cr) = Ok rm ->
      effect (Uncommitted u) (DNew (NComposition l r))
             [(n, plain n (Abstract (Comp nl nr fv bv) None));
              (nr, set_right cr rm); (nl, set_left cl lm)]
  | EfLefthand u comp r cc nc nr c cr rm fv bv red :
      com comp nc -> com r nr -> nr <> nc -> near nc c -> near nr cr ->
      c_spec c = Abstract (Leaf Constant) red ->
      ins n nc (righthand_of cr) = Ok rm ->
      effect (Uncommitted u) (DNew (NLefthand comp r cc))
             [(n, Concept n [(nr, nc)] [] [] (abstract_or_concrete cc));
              (nc, set_spec c (Abstract (Comp n nr fv bv) red)); (nr, set_right cr rm)]
  | EfRighthand u comp l cc nc nl c cl lm fv bv red :
      com comp nc -> com l nl -> nl <> nc -> near nc c -> near nl cl ->
      c_spec c = Abstract (Leaf Constant) red ->
      ins n nc (lefthand_of cl) = Ok lm ->
      effect (Uncommitted u) (DNew (NRighthand comp l cc))
             [(n, Concept n [] [(nl, nc)] [] (abstract_or_concrete cc));
              (nc, set_spec c (Abstract (Comp nl n fv bv) red)); (nl, set_left cl lm)]
  | EfDouble u comp cc nc c k red :
      com comp nc -> near nc c -> c_spec c = Abstract k red ->
      effect (Uncommitted u) (DNew (NDouble comp cc))
             [(n, Concept n [(n, nc)] [(n, nc)] [] (abstract_or_concrete cc));
              (nc, set_spec c (Abstract (Comp n n [] []) red))]
  | EfReducesTo u r nr cr :
      com r nr -> near nr cr ->
      effect (Uncommitted u) (DNew (NReducesTo r))
             [(n, plain n (Abstract (Leaf Constant) (Some nr)));
              (nr, set_from cr (sadd Nat.eqb n (reduces_from cr)))]
  | EfComposeCreate i c l r nc nl nr cc cl cr k red lm rm fv bv :
      com c nc -> com l nl -> com r nr -> NoDup [nc; nl; nr] ->
      at_ nc cc -> at_ nl cl -> at_ nr cr -> c_spec cc = Abstract k red ->
      ins nr nc (lefthand_of cl) = Ok lm -> ins nl nc (righthand_of cr) = Ok rm ->
      effect i (DCompose c (Create (l, r)))
             [(nr, set_right cr rm); (nl, set_left cl lm);
              (nc, set_spec cc (Abstract (Comp nl nr fv bv) red))]
  | EfComposeUpdate i c bl br l r nc nbl nbr nl nr cc cbl cbr cl cr k red lm rm fv bv :
      com c nc -> com bl nbl -> com br nbr -> com l nl -> com r nr ->
      NoDup [nc; nbl; nbr; nl; nr] ->
      at_ nc cc -> at_ nbl cbl -> at_ nbr cbr -> at_ nl cl -> at_ nr cr ->
      c_spec cc = Abstract k red ->
      ins nr nc (lefthand_of cl) = Ok lm -> ins nl nc (righthand_of cr) = Ok rm ->
      effect i (DCompose c (Update (bl, br) (l, r)))
             [(nr, set_right cr rm); (nl, set_left cl lm);
              (nbr, set_right cbr (adel Nat.eqb nc (righthand_of cbr)));
              (nbl, set_left cbl (adel Nat.eqb nc (lefthand_of cbl)));
              (nc, set_spec cc (Abstract (Comp nl nr fv bv) red))]
  | EfComposeRemove i c l r nc nl nr cc cl cr k red :
      com c nc -> com l nl -> com r nr -> NoDup [nc; nl; nr] ->
      at_ nc cc -> at_ nl cl -> at_ nr cr -> c_spec cc = Abstract k red ->
      effect i (DCompose c (Remove (l, r)))
             [(nr, set_right cr (adel Nat.eqb nc (righthand_of cr)));
              (nl, set_left cl (adel Nat.eqb nc (lefthand_of cl)));
              (nc, set_spec cc (Abstract (Leaf Constant) red))]
  | EfReduceCreate i x y nx ny cx cy k red :
      com x nx -> com y ny -> NoDup [nx; ny] -> at_ nx cx -> at_ ny cy ->
      c_spec cx = Abstract k red ->
      effect i (DReduce x (Create y))
             [(ny, set_from cy (sadd Nat.eqb nx (reduces_from cy)));
              (nx, set_spec cx (Abstract k (Some ny)))]
  | EfReduceUpdate i x y z nx ny nz cx cy cz k red :
      com x nx -> com y ny -> com z nz -> NoDup [nx; ny; nz] ->
      at_ nx cx -> at_ ny cy -> at_ nz cz -> c_spec cx = Abstract k red ->
      effect i (DReduce x (Update y z))
             [(nz, set_from cz (sadd Nat.eqb nx (reduces_from cz)));
              (ny, set_from cy (sdel Nat.eqb nx (reduces_from cy)));
              (nx, set_spec cx (Abstract k (Some nz)))]
  | EfReduceRemove i x y nx ny cx cy k red :
      com x nx -> com y ny -> NoDup [nx; ny] -> at_ nx cx -> at_ ny cy ->
      c_spec cx = Abstract k red ->
      effect i (DReduce x (Remove y))
             [(ny, set_from cy (sdel Nat.eqb nx (reduces_from cy)));
              (nx, set_spec cx (Abstract k None))].

  (** The store a change starts from. *)
  Definition base_of (d : direct) : snapshot :=
    match d with DNew _ => grown s | _ => s end.

  (** The rest of the store. *)
  Definition frame (id : cid) (d : direct) (s' : snapshot) : Prop :=
    (string_map s' = match d with
                     | DNew (NString t) => aset text_eqb t n (string_map s)
                     | _ => string_map s end) /\
    (concrete_concepts s' = match d with
                            | DNew (NLefthand _ _ (Some cc)) | DNew (NRighthand _ _ (Some cc))
                            | DNew (NDouble _ (Some cc)) =>
                              bimap_insert n cc (concrete_concepts s)
                            | _ => concrete_concepts s end) /\
    (prev_unc s' = match d, id with
                   | DNew _, Uncommitted u => aset Nat.eqb u n (prev_unc s)
                   | _, _ => prev_unc s end).

  Hypothesis W : self_numbered s.

  Lemma put_rest c s1 : string_map (put c s1) = string_map s1 /\
    concrete_concepts (put c s1) = concrete_concepts s1 /\ prev_unc (put c s1) = prev_unc s1.
  Proof. repeat split. Qed.

  Lemma fold_put cs s1 us base :
    overrides us base s1 ->
    overrides (rev (map (fun c => (c_id c, c)) cs) ++ us) base
              (fold_left (fun s c => put c s) cs s1) /\
    string_map (fold_left (fun s c => put c s) cs s1) = string_map s1 /\
    concrete_concepts (fold_left (fun s c => put c s) cs s1) = concrete_concepts s1 /\
    prev_unc (fold_left (fun s c => put c s) cs s1) = prev_unc s1.
  Proof.
    revert s1 us. induction cs as [|c cs IH]; intros s1 us O; cbn.
    - auto.
    - destruct (IH (put c s1) ((c_id c, c) :: us)) as (A & B); [apply overrides_put; auto|].
      rewrite <- app_assoc. cbn. auto.
  Qed.

  Lemma commit_with_effect u deps f k s' :
    commit_with u deps f s = Ok (k, s') ->
    k = n /\
    exists ns cs c cs',
      Forall2 (fun i n => to_committed s i = Ok n) deps ns /\ NoDup ns /\
      Forall2 (fun i c => lookup (grown s) i = Some c) ns cs /\
      f cs n = Ok (c, cs') /\
      overrides ((n, c) :: rev (map (fun c => (c_id c, c)) cs')) (grown s) s' /\
      string_map s' = string_map s /\ concrete_concepts s' = concrete_concepts s /\
      prev_unc s' = aset Nat.eqb u n (prev_unc s).
  Proof.
    unfold commit_with. intros H. oinv. subst. split; [reflexivity|].
    apply get_disjoint_spec in E0. destruct E0 as [D A].
    destruct (fold_put l (grown s) [] (grown s) (overrides_nil _)) as (O & R1 & R2 & R3).
    rewrite app_nil_r in O.
    do 4 eexists. repeat split; [apply all_committed_spec; eassumption|exact D|exact A|eassumption|..];
      cbn.
    - apply (overrides_same _ _ _ _ (overrides_upd _ _ _ n c O) eq_refl).
    - apply (proj2 (overrides_upd _ _ _ n c O)).
    - exact R1.
    - exact R2.
    - f_equal. exact R3.
  Qed.

  Ltac f2inv :=
    repeat match goal with
    | H : Forall2 _ (_ :: _) ?l |- _ => inversion H; clear H; subst
    | H : Forall2 _ [] ?l |- _ => inversion H; clear H; subst
    | H : Forall2 _ _ (_ :: _) |- _ => inversion H; clear H; subst
    end.
  Ltac ids :=
    repeat match goal with
    | H : lookup (grown s) ?i = Some ?c |- _ =>
      lazymatch goal with
      | _ : c_id c = i |- _ => fail
      | _ => pose proof (grown_self_numbered _ W _ _ H)
      end
    | H : lookup s ?i = Some ?c |- _ =>
      lazymatch goal with
      | _ : c_id c = i |- _ => fail
      | _ => pose proof (W _ _ H)
      end
    end.

  Ltac use_ids :=
    repeat match goal with H : c_id ?c = _ |- _ => try rewrite H in *; clear H end.

  Lemma composition_of_ok i l r comp l' r' :
    composition_of Nat.eqb dbg i l r = Ok (comp, l', r') ->
    exists lm rm fv bv,
      insert_into Nat.eqb dbg (c_id r) i (lefthand_of l) = Ok lm /\
      insert_into Nat.eqb dbg (c_id l) i (righthand_of r) = Ok rm /\
      comp = Comp (c_id l) (c_id r) fv bv /\ l' = set_left l lm /\ r' = set_right r rm.
  Proof.
    unfold composition_of. intros H. oinv.
    destruct (comp_vars Nat.eqb (set_left l x) (set_right r x0)) as [fv bv]. oinv. subst.
    do 4 eexists. eauto 6.
  Qed.

  Lemma set_spec_twice (c : concept nat) p q : set_spec (set_spec c p) q = set_spec c q.
  Proof. reflexivity. Qed.
  Lemma nodup_two {A} (a b : A) : NoDup [a; b] -> a <> b.
  Proof. inversion 1; subst. intros ->. cbn in *. tauto. Qed.

  Lemma apply_new_effect u nd s' :
    apply_new dbg u nd s = Ok s' ->
    frame (Uncommitted u) (DNew nd) s' /\
    exists us, effect (Uncommitted u) (DNew nd) us /\ overrides us (grown s) s'.
  Proof.
    assert (P : forall c (s1 : snapshot),
      concepts s1 = concepts s ++ [c] -> overrides [(n, c)] (grown s) s1).
    { intros c s1 E. split; [rewrite E; unfold grown; cbn; rewrite !app_length; reflexivity|].
      intros i. rewrite lookup_grown. unfold lookup. rewrite E. cbn.
      destruct (Nat.eqb_spec i n) as [->|N]; cbn.
      - rewrite nth_error_app2, Nat.sub_diag by auto. reflexivity.
      - destruct (Nat.lt_ge_cases i n).
        + rewrite nth_error_app1; auto.
        + transitivity (@None (concept nat)); [|symmetry]; apply nth_error_None;
            rewrite ?app_length; cbn; lia. }
    destruct nd as [t|l r| | |comp r cc|comp l cc|comp cc|r]; cbn [apply_new]; intros H.
    - unfold commit_new in H. oinv. subst.
      split; [repeat split|]. eexists; split; [apply EfString|apply P; reflexivity].
    - oinv. cbn in H. subst s'. apply commit_with_effect in E.
      destruct E as (-> & ns & cs & c & cs' & Hn & Nd & Hc & F & O & R1 & R2 & R3).
      f2inv. oinv. subst. apply composition_of_ok in E.
      destruct E as (lm & rm & fv & bv & I1 & I2 & -> & -> & ->).
      split; [repeat split; assumption|]. ids. cbn in O.
      eexists; split; [|exact O]. use_ids.
      eapply EfComposition; eauto using nodup_two.
    - unfold commit_new in H. oinv. subst.
      split; [repeat split|]. eexists; split; [apply EfFree|apply P; reflexivity].
    - unfold commit_new in H. oinv. subst.
      split; [repeat split|]. eexists; split; [apply EfBound|apply P; reflexivity].
    - oinv. apply commit_with_effect in E.
      destruct E as (-> & ns & cs & c & cs' & Hn & Nd & Hc & F & O & R1 & R2 & R3).
      f2inv. oinv. subst. unfold new_lefthand_of in E.
      destruct (c_spec y2) as [?|k red|?] eqn:Sp; try discriminate E.
      destruct k as [a b fv bv|[]]; try discriminate E. oinv.
      match type of E with (let '(_, _) := ?z in _) = _ => destruct z as [fv bv] end. oinv. subst.
      split; [destruct cc; repeat split; cbn; congruence|]. ids. cbn in O.
      eexists; split; [|destruct cc; exact O]. use_ids.
      eapply EfLefthand; eauto using nodup_two.
    - oinv. apply commit_with_effect in E.
      destruct E as (-> & ns & cs & c & cs' & Hn & Nd & Hc & F & O & R1 & R2 & R3).
      f2inv. oinv. subst. unfold new_righthand_of in E.
      destruct (c_spec y2) as [?|k red|?] eqn:Sp; try discriminate E.
      destruct k as [a b fv bv|[]]; try discriminate E. oinv.
      match type of E with (let '(_, _) := ?z in _) = _ => destruct z as [fv bv] end. oinv. subst.
      split; [destruct cc; repeat split; cbn; congruence|]. ids. cbn in O.
      eexists; split; [|destruct cc; exact O]. use_ids.
      eapply EfRighthand; eauto using nodup_two.
    - oinv. apply commit_with_effect in E.
      destruct E as (-> & ns & cs & c & cs' & Hn & Nd & Hc & F & O & R1 & R2 & R3).
      f2inv. oinv. subst. unfold new_double in E.
      destruct (c_spec y0) as [?|k red|?] eqn:Sp; try discriminate E. oinv. subst.
      split; [destruct cc; repeat split; cbn; congruence|]. ids. cbn in O.
      eexists; split; [|destruct cc; exact O]. use_ids.
      eapply EfDouble; eauto.
    - oinv. cbn in H. subst s'. apply commit_with_effect in E.
      destruct E as (-> & ns & cs & c & cs' & Hn & Nd & Hc & F & O & R1 & R2 & R3).
      f2inv. cbn in F. oinv. subst.
      split; [repeat split; assumption|]. ids. cbn in O.
      eexists; split; [|exact O]. use_ids.
      eapply EfReducesTo; eauto.
  Qed.

  Lemma apply_direct_effect id d s' :
    apply_direct dbg id d s = Ok s' ->
    frame id d s' /\ exists us, effect id d us /\ overrides us (base_of d) s'.
  Proof.
    destruct d as [nd|c ch|u ch|i]; cbn [apply_direct]; intros H.
    - destruct id; [discriminate|]. apply apply_new_effect. exact H.
    - oinv. unfold apply_compose in H.
      destruct ch as [[l r]|[bl br] [l r]|[l r]]; unfold write_concepts in H; oinv;
        apply all_committed_spec in E1; apply get_disjoint_spec in E0; destruct E0 as [Nd A];
        f2inv; oinv.
      + unfold change_composition_create in E0.
        destruct (c_spec y2) as [?|k red|?] eqn:Sp; try discriminate E0. oinv. subst.
        apply composition_of_ok in E1.
        destruct E1 as (lm & rm & fv & bv & I1 & I2 & -> & -> & ->). ids.
        split; [destruct id; repeat split|].
        eexists; split; [|apply overrides_put, overrides_put, overrides_put, overrides_nil].
        cbn. use_ids. eapply EfComposeCreate; eauto.
      + unfold change_composition_update in E0.
        destruct (c_spec y4) as [?|k red|?] eqn:Sp; try discriminate E0. oinv. subst.
        apply composition_of_ok in E1.
        destruct E1 as (lm & rm & fv & bv & I1 & I2 & -> & -> & ->). ids.
        split; [destruct id; repeat split|].
        eexists; split;
          [|apply overrides_put, overrides_put, overrides_put, overrides_put, overrides_put,
              overrides_nil].
        cbn. use_ids. eapply EfComposeUpdate; eauto.
      + unfold change_composition_remove in E0.
        destruct (c_spec y2) as [?|k red|?] eqn:Sp; try discriminate E0. oinv. subst. ids.
        split; [destruct id; repeat split|].
        eexists; split; [|apply overrides_put, overrides_put, overrides_put, overrides_nil].
        cbn. use_ids. eapply EfComposeRemove; eauto.
    - oinv. unfold apply_reduce in H.
      destruct ch as [r|b r|r]; unfold write_concepts in H; oinv;
        apply all_committed_spec in E1; apply get_disjoint_spec in E0; destruct E0 as [Nd A];
        f2inv; oinv.
      + unfold make_reduce_to in E0.
        destruct (c_spec y1) as [?|k red|?] eqn:Sp; try discriminate E0. oinv. subst. ids.
        split; [destruct id; repeat split|].
        eexists; split; [|apply overrides_put, overrides_put, overrides_nil].
        cbn. use_ids. eapply EfReduceCreate; eauto.
      + unfold make_no_longer_reduce_to in E0.
        destruct (c_spec y2) as [?|k red|?] eqn:Sp; try discriminate E0. oinv. subst.
        unfold make_reduce_to in E1. cbn in E1. oinv. subst. ids.
        split; [destruct id; repeat split|].
        eexists; split; [|apply overrides_put, overrides_put, overrides_put, overrides_nil].
        cbn. rewrite set_spec_twice.
        use_ids. eapply EfReduceUpdate; eauto.
      + unfold make_no_longer_reduce_to in E0.
        destruct (c_spec y1) as [?|k red|?] eqn:Sp; try discriminate E0. oinv. subst. ids.
        split; [destruct id; repeat split|].
        eexists; split; [|apply overrides_put, overrides_put, overrides_nil].
        cbn. use_ids. eapply EfReduceRemove; eauto.
    - discriminate.
  Qed.
End Effect.
