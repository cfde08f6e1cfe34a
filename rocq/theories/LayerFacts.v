(** Stacked layers of pending changes against one layer with all changes. *)
From Verif Require Import Snapshot MapFacts LexerFacts StoreFacts.
From Coq Require Import String List Permutation Lia.
Import ListNotations.

(** ** Specification: the same calls on a stack of layers and on one layer *)
(** What the code does to pending changes: start a new layer on top
    (zia/src/context_delta.rs:461-471), record a change (lines 687-694) or only make up a
    new concept (lines 708-713). *)
Inductive op := NewLayer | Record_ (d : direct) | MakeUp (nd : new_delta cid).
Definition on_stack (x : op) (d : delta) : outcome (option cid * delta) :=
  match x with
  | NewLayer => Ok (None, delta_spawn d)
  | Record_ x => obind (delta_update x d) (fun '(id, d) => Ok (Some id, d))
  | MakeUp nd => obind (delta_insert_new nd d) (fun '(id, d) => Ok (Some id, d))
  end.
Definition on_flat (x : op) (d : delta) : outcome (option cid * delta) :=
  match x with
  | NewLayer => Ok (None, d)
  | x => on_stack x d
  end.
Fixpoint all_ops (f : op -> delta -> outcome (option cid * delta)) (l : list op) (d : delta)
  : outcome (list (option cid) * delta) :=
  match l with
  | [] => Ok ([], d)
  | x :: l =>
    obind (f x d) (fun '(id, d) =>
    obind (all_ops f l d) (fun '(ids, d) => Ok (id :: ids, d)))
  end.

(** ** Proofs *)
Record alike (d : delta) (l : layer) : Prop := {
  al_num : d_num (overlay d) = d_num l;
  al_concept : forall id, delta_concept d id = aget cid_eqb id (d_concept l);
  al_order : delta_order d = d_order l;
  al_string : forall b s, delta_string b d s = Ok (aget text_eqb s (d_string l));
  al_full : forall id cds, aget cid_eqb id (d_concept (overlay d)) = Some cds -> cds <> [];
  al_create : forall s ch, aget text_eqb s (d_string l) = Some ch -> exists c, ch = Create c;
  al_keys : Forall (fun l => NoDup (map fst (d_concept l))) (layers d);
  al_flat_keys : NoDup (map fst (d_concept l))
}.

Lemma unsnoc_app2 {A} (a b : list A) : b <> [] ->
  exists i x, unsnoc b = Some (i, x) /\ unsnoc (a ++ b) = Some (a ++ i, x).
Proof.
  intros N. destruct (unsnoc b) as [[i x]|] eqn:E.
  - exists i, x. split; [reflexivity|]. apply unsnoc_Some in E. subst b.
    rewrite app_assoc. apply unsnoc_app.
  - apply unsnoc_None in E. contradiction.
Qed.

Ltac al H := destruct H as [Hn Hc Ho Hs Hf Hcr Hk Hfk]; constructor; cbn in *.

Lemma alike_insert ok site id cd l l' o i :
  alike (Delta o i) l -> insert_delta ok site id cd l = Ok l' ->
  exists o', insert_delta ok site id cd o = Ok o' /\ alike (Delta o' i) l'.
Proof.
  intros H E. unfold insert_delta in *.
  pose proof (al_concept _ _ H id) as Hid. unfold delta_concept in Hid. cbn in Hid.
  assert (M : forall v v' o' l',
    (forall id', id' <> id -> aget cid_eqb id' (d_concept o') = aget cid_eqb id' (d_concept o)) ->
    (forall id', id' <> id -> aget cid_eqb id' (d_concept l') = aget cid_eqb id' (d_concept l)) ->
    aget cid_eqb id (d_concept o') = Some v -> aget cid_eqb id (d_concept l') = Some v' ->
    v <> [] -> match layers_concept i id with None => v | Some w => w ++ v end = v' ->
    d_num o' = d_num o -> d_num l' = d_num l -> d_order o' = d_order o -> d_order l' = d_order l ->
    d_string o' = d_string o -> d_string l' = d_string l ->
    NoDup (map fst (d_concept o')) -> NoDup (map fst (d_concept l')) ->
    alike (Delta o' i) l').
  { intros v v' o' l1 O1 O2 O3 O4 O5 O6 O7 O8 O9 O10 O11 O12 O13 O14.
    destruct H as [Hn Hc Ho Hs Hf Hcr Hk Hfk]; constructor; cbn in *.
    - congruence.
    - intros id'. specialize (Hc id'). unfold delta_concept in *. cbn in *.
      destruct (cid_eqb_spec id' id) as [->|N].
      + rewrite O3, O4. destruct (layers_concept i id); rewrite O6; reflexivity.
      + rewrite O1, O2 by exact N. exact Hc.
    - unfold delta_order in *. cbn in *. rewrite O9, O10. exact Ho.
    - intros b s. specialize (Hs b s). unfold delta_string in *. cbn in *. rewrite O11, O12. exact Hs.
    - intros id' cds E1. destruct (cid_eqb_spec id' id) as [->|N].
      + rewrite O3 in E1. injection E1 as <-. exact O5.
      + rewrite O1 in E1 by exact N. eapply Hf. exact E1.
    - rewrite O12. exact Hcr.
    - inversion Hk; subst. constructor; assumption.
    - exact O14. }
  assert (A : forall T (v : T) m id', id' <> id ->
            aget cid_eqb id' (aset cid_eqb id v m) = aget cid_eqb id' m).
  { intros T v m id' N. rewrite (aget_aset cid_eqb cid_eqb_spec).
    destruct (cid_eqb_spec id' id); [contradiction|reflexivity]. }
  assert (A' : forall T (v : T) m, aget cid_eqb id (aset cid_eqb id v m) = Some v).
  { intros T v m. rewrite (aget_aset cid_eqb cid_eqb_spec).
    destruct (cid_eqb_spec id id); [reflexivity|contradiction]. }
  assert (K : Forall (fun l => NoDup (map fst (d_concept l))) (o :: i)) by exact (al_keys _ _ H).
  inversion K as [|? ? Ko Ki]; subst. pose proof (al_flat_keys _ _ H) as Kl.
  destruct (aget cid_eqb id (d_concept o)) as [co|] eqn:Eo.
  - assert (N : co <> []) by (eapply (al_full _ _ H); cbn; exact Eo).
    destruct (aget cid_eqb id (d_concept l)) as [cl|] eqn:El.
    + destruct (unsnoc cl) as [[cli last]|] eqn:U; [|discriminate E].
      destruct (ok last) eqn:OK; [|discriminate E]. injection E as <-.
      assert (U' : exists p, unsnoc co = Some (p, last)).
      { destruct (layers_concept i id) as [w|] eqn:Ew; injection Hid as <-.
        - destruct (unsnoc_app2 w co N) as (p & x & U1 & U2). rewrite U in U2.
          injection U2 as _ <-. exists p. exact U1.
        - exists cli. exact U. }
      destruct U' as [p ->]. rewrite OK. eexists. split; [reflexivity|].
      eapply (M (co ++ [cd]) (cl ++ [cd])); cbn; auto.
      * destruct co; discriminate.
      * destruct (layers_concept i id); injection Hid as <-; [apply app_assoc|reflexivity].
      * apply (aset_NoDup cid_eqb cid_eqb_spec). exact Ko.
      * apply (aset_NoDup cid_eqb cid_eqb_spec). exact Kl.
    + destruct (layers_concept i id); discriminate Hid.
  - eexists. split; [reflexivity|].
    destruct (aget cid_eqb id (d_concept l)) as [cl|] eqn:El.
    + destruct (unsnoc cl) as [[cli last]|] eqn:U; [|discriminate E].
      destruct (ok last) eqn:OK; [|discriminate E]. injection E as <-.
      eapply (M [cd] (cl ++ [cd])); cbn; auto.
      * discriminate.
      * destruct (layers_concept i id); [injection Hid as <-; reflexivity|discriminate Hid].
      * apply (aset_NoDup cid_eqb cid_eqb_spec). exact Ko.
      * apply (aset_NoDup cid_eqb cid_eqb_spec). exact Kl.
    + injection E as <-. eapply (M [cd] [cd]); cbn; auto.
      * discriminate.
      * destruct (layers_concept i id); [discriminate Hid|reflexivity].
      * apply (aset_NoDup cid_eqb cid_eqb_spec). exact Ko.
      * apply (aset_NoDup cid_eqb cid_eqb_spec). exact Kl.
Qed.

Lemma alike_existing id cd l l' o i :
  alike (Delta o i) l -> insert_existing id cd l = Ok l' ->
  exists o', insert_existing id cd o = Ok o' /\ alike (Delta o' i) l'.
Proof. apply alike_insert. Qed.

Lemma alike_insert_new nd l id l' o i :
  alike (Delta o i) l -> insert_new nd l = Ok (id, l') ->
  exists o', insert_new nd o = Ok (id, o') /\ alike (Delta o' i) l'.
Proof.
  intros H E. unfold insert_new in *. pose proof (al_num _ _ H) as Hn. cbn in Hn. rewrite Hn.
  apply obind_ok in E. destruct E as (l1 & E1 & E2). injection E2 as <- <-.
  assert (H1 : alike (Delta (Layer (d_string o) (S (d_num l)) (d_order o) (d_concept o)) i)
                     (Layer (d_string l) (S (d_num l)) (d_order l) (d_concept l))).
  { destruct H as [? Hc Ho Hs Hf Hcr Hk Hfk]; constructor; cbn in *; auto.
    inversion Hk; subst. constructor; assumption. }
  destruct (alike_insert _ _ _ _ _ _ _ _ H1 E1) as (o' & E2 & H2).
  rewrite E2. exists o'. split; [reflexivity|exact H2].
Qed.

Lemma alike_set_string s c l o i :
  alike (Delta o i) l -> aget text_eqb s (d_string l) = None ->
  aget text_eqb s (d_string o) = None /\
  alike (Delta (set_string s (Create c) o) i) (set_string s (Create c) l).
Proof.
  intros H E. pose proof (al_string _ _ H true s) as Hss. unfold delta_string in Hss. cbn in Hss.
  apply obind_ok in Hss. destruct Hss as (v & V1 & V2). rewrite E in V2.
  assert (Ov : v = None /\ aget text_eqb s (d_string o) = None).
  { destruct (aget text_eqb s (d_string o)) as [ch|].
    - destruct v as [[]|], ch; cbn in V2; try discriminate V2;
        repeat match type of V2 with
               | context [cid_eqb ?a ?b] => destruct (cid_eqb a b); cbn in V2
               end; try discriminate V2.
    - destruct v as [[]|]; cbn in V2; try discriminate V2. split; reflexivity. }
  destruct Ov as [-> Eo]. split; [exact Eo|].
  destruct H as [Hn Hc Ho Hs Hf Hcr Hk Hfk]; constructor; cbn in *; auto.
  - intros b t. specialize (Hs b t). unfold delta_string in *. cbn in *.
    rewrite !(aget_aset text_eqb text_eqb_spec).
    destruct (text_eqb_spec t s) as [->|N]; [|exact Hs].
    apply obind_ok in Hs. destruct Hs as (w & W1 & W2). rewrite W1. cbn.
    rewrite Eo, E in W2. destruct w as [[]|]; cbn in W2; try discriminate W2. reflexivity.
  - intros t ch. rewrite (aget_aset text_eqb text_eqb_spec).
    destruct (text_eqb_spec t s) as [->|N].
    + intros K. injection K as <-. exists c. reflexivity.
    + apply Hcr.
  - inversion Hk; subst. constructor; assumption.
Qed.

Lemma alike_push id d l o i :
  alike (Delta o i) l -> alike (Delta (push_order id d o) i) (push_order id d l).
Proof.
  intros [Hn Hc Ho Hs Hf Hcr Hk Hfk]. constructor; cbn in *; auto.
  - unfold delta_order in *. cbn in *. rewrite app_assoc, Ho. reflexivity.
  - inversion Hk; subst. constructor; assumption.
Qed.

(** One inserted entry after another *)
Ltac follow :=
  match goal with
  | H : alike (Delta ?o ?i) ?l, E : insert_existing ?id ?cd ?l = Ok ?l' |- _ =>
    let o' := fresh "o" in let E' := fresh "E" in let H' := fresh "H" in
    destruct (alike_existing id cd l l' o i H E) as (o' & E' & H');
    rewrite ?E'; cbn [obind]; clear H E
  | E : obind _ _ = Ok _ |- _ =>
    let x := fresh "x" in let E1 := fresh "E" in
    apply obind_ok in E; destruct E as (x & E1 & E)
  | E : Ok _ = Ok _ |- _ => injection E; clear E; intros; subst
  end.

Lemma alike_update_new nd l id l' o i :
  alike (Delta o i) l -> update_new nd l = Ok (id, l') ->
  exists o', update_new nd o = Ok (id, o') /\ alike (Delta o' i) l'.
Proof.
  intros H E. unfold update_new in *. apply obind_ok in E. destruct E as ([id1 l1] & E1 & E).
  destruct (alike_insert_new _ _ _ _ _ _ H E1) as (o1 & E2 & H1). rewrite E2. cbn [obind].
  clear E1 E2 H. destruct nd.
  2-8: repeat follow; eexists; (split; [reflexivity|eassumption]).
  - destruct (aget text_eqb s (d_string l1)) as [ch|] eqn:Es.
    + destruct (al_create _ _ H1 _ _ Es) as [c ->]. discriminate E.
    + injection E as <- <-. destruct (alike_set_string s id1 _ _ _ H1 Es) as [Eo H2].
      rewrite Eo. eexists. split; [reflexivity|exact H2].
Qed.

Lemma alike_update_layer d l id l' o i :
  alike (Delta o i) l -> update_layer d l = Ok (id, l') ->
  exists o', update_layer d o = Ok (id, o') /\ alike (Delta o' i) l'.
Proof.
  intros H E. unfold update_layer in *. apply obind_ok in E. destruct E as ([id1 l1] & E1 & E).
  injection E as <- <-.
  match goal with
  | |- exists o', obind ?X _ = _ /\ _ =>
    assert (Y : exists o1, X = Ok (id1, o1) /\ alike (Delta o1 i) l1)
  end.
  { destruct d as [nd|c ch|u ch|r].
    - eapply alike_update_new; eassumption.
    - destruct (before ch) as [[]|], (after ch) as [[]|]; cbn [obind] in *;
        repeat follow; eexists; (split; [reflexivity|eassumption]).
    - destruct (before ch) as [|], (after ch) as [|]; cbn [obind] in *;
        repeat follow; eexists; (split; [reflexivity|eassumption]).
    - repeat follow; eexists; (split; [reflexivity|eassumption]). }
  destruct Y as (o1 & -> & H1). cbn [obind]. eexists. split; [reflexivity|].
  apply alike_push. exact H1.
Qed.

Lemma alike_spawn d l : alike d l -> alike (delta_spawn d) l.
Proof.
  destruct d as [o i]. intros [Hn Hc Ho Hs Hf Hcr Hk Hfk]. constructor; cbn in *; auto.
  - intros id. specialize (Hc id). unfold delta_concept, delta_spawn in *. cbn in *.
    destruct (match layers_concept i id with Some _ => _ | None => _ end) eqn:E; exact Hc || idtac.
    all: rewrite Hc; reflexivity.
  - unfold delta_order, delta_spawn in *. cbn in *. rewrite app_nil_r. exact Ho.
  - intros b s. specialize (Hs b s). unfold delta_string, delta_spawn in *. cbn in *.
    rewrite Hs. cbn. destruct (aget text_eqb s (d_string l)) as [[]|]; reflexivity.
  - discriminate.
  - constructor; [constructor|exact Hk].
Qed.

Lemma alike_op x d l id d' :
  alike d l -> on_flat x (Delta l []) = Ok (id, d') ->
  exists e l', on_stack x d = Ok (id, e) /\ d' = Delta l' [] /\ alike e l'.
Proof.
  intros H E. destruct d as [o i]. destruct x as [|x|nd]; cbn in E.
  - injection E as <- <-. exists (delta_spawn (Delta o i)), l.
    split; [reflexivity|]. split; [reflexivity|]. apply alike_spawn. exact H.
  - apply obind_ok in E. destruct E as ([id1 d1] & E1 & E). injection E as <- <-.
    apply obind_ok in E1. destruct E1 as ([id2 l2] & E1 & E2). injection E2 as <- <-.
    destruct (alike_update_layer _ _ _ _ _ _ H E1) as (o' & E3 & H').
    exists (Delta o' i), l2. cbn. rewrite E3. split; [reflexivity|]. split; [reflexivity|exact H'].
  - apply obind_ok in E. destruct E as ([id1 d1] & E1 & E). injection E as <- <-.
    apply obind_ok in E1. destruct E1 as ([id2 l2] & E1 & E2). injection E2 as <- <-.
    destruct (alike_insert_new _ _ _ _ _ _ H E1) as (o' & E3 & H').
    exists (Delta o' i), l2. cbn. rewrite E3. split; [reflexivity|]. split; [reflexivity|exact H'].
Qed.

Lemma alike_ops ops d l ids d' :
  alike d l -> all_ops on_flat ops (Delta l []) = Ok (ids, d') ->
  exists e l', all_ops on_stack ops d = Ok (ids, e) /\ d' = Delta l' [] /\ alike e l'.
Proof.
  revert d l ids. induction ops as [|x ops IH]; intros d l ids H E.
  - injection E as <- <-. exists d, l. split; [reflexivity|]. split; [reflexivity|exact H].
  - cbn [all_ops] in E. apply obind_ok in E. destruct E as ([id d1] & E1 & E).
    apply obind_ok in E. destruct E as ([ids1 d2] & E2 & E). injection E as <- <-.
    destruct (alike_op _ _ _ _ _ H E1) as (e1 & l1 & F1 & -> & H1).
    destruct (IH _ _ _ H1 E2) as (e2 & l2 & F2 & -> & H2).
    exists e2, l2. cbn [all_ops]. rewrite F1. cbn [obind]. rewrite F2. split; [reflexivity|].
    split; [reflexivity|exact H2].
Qed.

Lemma alike_default : alike delta_default (new_layer 0).
Proof.
  constructor; cbn; try reflexivity; try discriminate.
  - constructor; [constructor|constructor].
  - constructor.
Qed.

(** ** What is read *)
Lemma alike_concept_flat d l id : alike d l -> delta_concept d id = delta_concept (Delta l []) id.
Proof. intros H. rewrite (al_concept _ _ H). reflexivity. Qed.

Lemma alike_string_flat b d l s : alike d l -> delta_string b d s = delta_string b (Delta l []) s.
Proof.
  intros H. rewrite (al_string _ _ H). unfold delta_string. cbn.
  destruct (aget text_eqb s (d_string l)); reflexivity.
Qed.

(** The iteration over all changed concepts *)
Lemma iter_entry cfg ls id cds :
  fair cfg -> Forall (fun l => NoDup (map fst (d_concept l))) ls ->
  In (id, cds) (layers_iter_concepts cfg ls) <-> layers_concept ls id = Some cds.
Proof.
  intros F K. revert id cds. induction K as [|l ls Kl K IH]; intros id cds; cbn.
  - split; [intros []|discriminate].
  - rewrite in_app_iff, filter_In, in_map_iff, IH. split.
    + intros [[E N]|([k v] & E & I)].
      * destruct (aget cid_eqb id (d_concept l)); [discriminate N|]. rewrite E. reflexivity.
      * injection E as -> <-. apply (Permutation_in _ (F _ _ _)) in I.
        rewrite (In_aget cid_eqb cid_eqb_spec id v _ Kl I).
        destruct (layers_concept ls id); reflexivity.
    + destruct (aget cid_eqb id (d_concept l)) as [v|] eqn:E.
      * intros H. right. exists (id, v). split.
        -- destruct (layers_concept ls id); injection H as <-; reflexivity.
        -- apply (Permutation_in _ (Permutation_sym (F _ _ _))).
           apply (aget_In cid_eqb cid_eqb_spec). exact E.
      * intros H. left. split; [|reflexivity]. destruct (layers_concept ls id); exact H.
Qed.

Lemma NoDup_map_filter {A B} (f : A -> B) p l : NoDup (map f l) -> NoDup (map f (filter p l)).
Proof.
  induction l as [|a l IH]; cbn; [auto|]. intros N. inversion N; subst.
  destruct (p a); cbn; [constructor|]; auto. intros I. apply in_map_iff in I.
  destruct I as (y & E & I). apply filter_In in I. destruct I as [I _].
  apply H1. rewrite <- E. apply in_map. exact I.
Qed.

Lemma iter_keys cfg ls :
  fair cfg -> Forall (fun l => NoDup (map fst (d_concept l))) ls ->
  NoDup (map fst (layers_iter_concepts cfg ls)).
Proof.
  intros F K. induction K as [|l ls Kl K IH]; cbn; [constructor|].
  rewrite map_app, map_map.
  assert (EM : map (fun x : cid * list cdelta =>
            fst (let '(id, o) := x in
                 (id, match layers_concept ls id with Some i => i ++ o | None => o end)))
            (ord cfg (ODelta (List.length ls)) _ (d_concept l))
          = map fst (ord cfg (ODelta (List.length ls)) _ (d_concept l))).
  { apply map_ext. intros [k v]. reflexivity. }
  rewrite EM. clear EM.
  assert (P : Permutation (map fst (ord cfg (ODelta (List.length ls)) _ (d_concept l)))
                          (map fst (d_concept l))) by (apply Permutation_map; apply F).
  assert (D : forall a b : list cid, NoDup a -> NoDup b -> (forall x, In x a -> ~ In x b) ->
              NoDup (a ++ b)).
  { clear. induction a as [|x a IH]; intros b Na Nb D; [exact Nb|]. inversion Na; subst.
    cbn. constructor.
    - rewrite in_app_iff. intros [I|I]; [contradiction|]. apply (D x); [left; reflexivity|exact I].
    - apply IH; auto. intros y I. apply D. right. exact I. }
  apply D.
  - apply NoDup_map_filter. exact IH.
  - eapply Permutation_NoDup; [apply Permutation_sym; exact P|exact Kl].
  - intros x I J. apply in_map_iff in I. destruct I as ([k v] & <- & I). apply filter_In in I.
    destruct I as [_ I]. cbn in J. apply (Permutation_in _ P) in J.
    destruct (aget cid_eqb k (d_concept l)) eqn:E; [discriminate I|].
    apply (aget_None cid_eqb cid_eqb_spec) in E. contradiction.
Qed.

Lemma alike_iter cfg d l :
  fair cfg -> alike d l ->
  Permutation (delta_iter_concepts cfg d) (delta_iter_concepts cfg (Delta l [])).
Proof.
  intros F H.
  assert (K : Forall (fun l => NoDup (map fst (d_concept l))) (layers (Delta l [])))
    by (constructor; [apply (al_flat_keys _ _ H)|constructor]).
  apply NoDup_Permutation.
  - eapply NoDup_map_inv. apply iter_keys; [exact F|apply (al_keys _ _ H)].
  - eapply NoDup_map_inv. apply iter_keys; [exact F|exact K].
  - intros [id cds]. unfold delta_iter_concepts.
    rewrite (iter_entry cfg _ id cds F (al_keys _ _ H)), (iter_entry cfg _ id cds F K).
    change (delta_concept d id = Some cds <-> delta_concept (Delta l []) id = Some cds).
    rewrite (alike_concept_flat _ _ id H). reflexivity.
Qed.

Section Readings.
  Variable cfg : config.
  Variable snap : snapshot.
  Variable d : delta.
  Variable l : layer.
  Hypothesis H : alike d l.

  Lemma alike_maybe_read id :
    maybe_read_concept cfg snap d id = maybe_read_concept cfg snap (Delta l []) id.
  Proof. unfold maybe_read_concept. rewrite (alike_concept_flat _ _ id H). reflexivity. Qed.
  Lemma alike_read id : read_concept cfg snap d id = read_concept cfg snap (Delta l []) id.
  Proof. unfold read_concept. rewrite alike_maybe_read. reflexivity. Qed.
  Lemma alike_get_string s :
    get_string_concept cfg snap d s = get_string_concept cfg snap (Delta l []) s.
  Proof. unfold get_string_concept. rewrite (alike_string_flat _ _ _ s H). reflexivity. Qed.
End Readings.

(** ** Arbitrary stacks *)
(** The layers of a stack, lowest first, and what each records about a concept *)
Definition bottom_up (ls : list layer) : list layer := rev ls.
Definition recorded (id : cid) (l : layer) : list cdelta :=
  match aget cid_eqb id (d_concept l) with Some cds => cds | None => [] end.
Definition mentions (id : cid) (l : layer) : bool :=
  match aget cid_eqb id (d_concept l) with Some _ => true | None => false end.

Lemma concept_of_stack ls id :
  layers_concept ls id =
  if existsb (mentions id) (bottom_up ls)
  then Some (flat_map (recorded id) (bottom_up ls)) else None.
Proof.
  induction ls as [|l ls IH]; [reflexivity|]. unfold bottom_up in *. cbn [rev layers_concept].
  rewrite IH, existsb_app, flat_map_app. cbn [existsb flat_map]. rewrite app_nil_r.
  assert (M : mentions id l = match aget cid_eqb id (d_concept l) with Some _ => true | None => false end)
    by reflexivity.
  assert (R : recorded id l = match aget cid_eqb id (d_concept l) with Some c => c | None => [] end)
    by reflexivity.
  rewrite M, R. clear M R.
  destruct (existsb (mentions id) (rev ls)) eqn:E; cbn [orb].
  - destruct (aget cid_eqb id (d_concept l)); [reflexivity|]. rewrite app_nil_r. reflexivity.
  - assert (Z : flat_map (recorded id) (rev ls) = []).
    { clear IH. induction (rev ls) as [|x xs IH]; [reflexivity|]. cbn in *.
      apply orb_false_elim in E. destruct E as [E1 E2]. rewrite (IH E2), app_nil_r.
      unfold mentions in E1. unfold recorded. destruct (aget _ _ _); [discriminate E1|reflexivity]. }
    rewrite Z. destruct (aget cid_eqb id (d_concept l)); reflexivity.
Qed.
Lemma order_of_stack ls : layers_order ls = flat_map d_order (bottom_up ls).
Proof.
  induction ls as [|l ls IH]; [reflexivity|]. unfold bottom_up in *. cbn [rev layers_order].
  rewrite IH, flat_map_app. cbn. rewrite app_nil_r. reflexivity.
Qed.
