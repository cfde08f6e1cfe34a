(** Debug and release builds: a run of the debug build either crashes or does exactly what
    the release build does. *)
From Verif Require Import Context.
From Coq Require Import String List Lia.
Import ListNotations.
Set Implicit Arguments.

(** The two builds of the program, iterating over its hash collections in the same order.
    They differ in whether [debug_assert!] is compiled in (cited at each [dassert]). *)
Definition debug (f : owner -> forall A : Type, list A -> list A) : config := {| dbg := true; ord := f |}.
Definition release (f : owner -> forall A : Type, list A -> list A) : config := {| dbg := false; ord := f |}.

(** Where the debug build can crash on its own account: at a [debug_assert!], or while it
    works out the value that one of them inspects. *)
Definition assertion_sites : list string :=
  ["bind_quantifier_concept"; "at most one composition of a pair"; "change_reduction";
   "setup: debug_assert_eq"; "get_string debug_assert_eq";
   "Generalisation doesn't contain bound variables"; "apply: composition_id";
   "apply: unreduced_id"; "apply: string"; "apply: previously_uncommitted_concepts";
   "apply_composition_change"; "maybe_read_concept: already committed";
   "maybe_read_concept: id"; "maybe_read_concept: nothing to remove"; "concrete_concept_id";
   "get_string_concept"; "new_labelled_concept"]%string.
Definition inspection_sites : list string :=
  ["Concept ID not committed yet!"; "No concept with id"; "concept must already exist";
   "Concept doesn't exist"; "change_composition: not implemented"; "Concept isn't abstract"]%string.
Definition debug_only (site : string) : Prop := In site (assertion_sites ++ inspection_sites).
Ltac site := unfold debug_only, assertion_sites, inspection_sites; cbn [app In];
  repeat (first [left; reflexivity|right]).

Definition like {A} (x y : outcome A) : Prop := (exists site, debug_only site /\ x = Panic site) \/ x = y.
Lemma like_refl A (x : outcome A) : like x x.
Proof. right. reflexivity. Qed.
Lemma like_panic A s (y : outcome A) : debug_only s -> like (Panic s) y.
Proof. left. eauto. Qed.
Lemma like_obind A B (x y : outcome A) (f g : A -> outcome B) :
  like x y -> (forall a, like (f a) (g a)) -> like (obind x f) (obind y g).
Proof.
  intros [[s [D ->]]| ->] H; [left; eexists; split; [exact D|reflexivity]|].
  destruct y; cbn [obind]; [apply H|right; reflexivity..].
Qed.
Lemma like_omap A B (f : A -> B) (x y : outcome A) : like x y -> like (omap f x) (omap f y).
Proof. intros H. apply like_obind; [exact H|]. intros a. apply like_refl. Qed.
Lemma like_dassert b s : debug_only s -> like (dassert true b s) (dassert false b s).
Proof. intros D. destruct b; [apply like_refl|apply like_panic; exact D]. Qed.
Lemma like_unwrap_res A (x y : outcome A) s : like x y -> like (unwrap_res x s) (unwrap_res y s).
Proof. intros [[s' [D ->]]| ->]; [apply like_panic; exact D|apply like_refl]. Qed.
Create HintDb same.
#[export] Hint Constants Opaque : same.
#[export] Hint Resolve like_refl like_panic : same.

(** One step of the walk over a function run by both builds. *)
Ltac step1 :=
  match goal with
  | |- like (obind _ _) (obind _ _) => apply like_obind; [|intros ?]
  | |- like (omap _ _) (omap _ _) => apply like_omap
  | |- like (unwrap_res _ _) (unwrap_res _ _) => apply like_unwrap_res
  | |- like (match ?x with _ => _ end) (match ?x with _ => _ end) => destruct x
  | |- like (if ?x then _ else _) (if ?x then _ else _) => destruct x
  | |- like (dassert true _ _) (dassert false _ _) => apply like_dassert; site
  | |- like _ _ => solve [eauto 2 with same]
  | |- like _ _ => progress cbv zeta
  end.
Ltac walk := repeat step1.

Section Pieces.
  Context {I : Type} (eqb : I -> I -> bool).
  Lemma insert_into_like k (c : I) m : like (insert_into eqb true k c m) (insert_into eqb false k c m).
  Proof. unfold insert_into. walk. Qed.
  Hint Resolve insert_into_like : same.
  Lemma composition_of_like i (l r : concept I) :
    like (composition_of eqb true i l r) (composition_of eqb false i l r).
  Proof. unfold composition_of. walk. Qed.
  Hint Resolve composition_of_like : same.
  Lemma new_lefthand_of_like i (r c : concept I) cc :
    like (new_lefthand_of eqb true i r c cc) (new_lefthand_of eqb false i r c cc).
  Proof. unfold new_lefthand_of. walk. Qed.
  Lemma new_righthand_of_like i (r c : concept I) cc :
    like (new_righthand_of eqb true i r c cc) (new_righthand_of eqb false i r c cc).
  Proof. unfold new_righthand_of. walk. Qed.
  Lemma change_reduction_like (c : concept I) ch :
    like (change_reduction eqb true c ch) (change_reduction eqb false c ch).
  Proof. unfold change_reduction. walk. Qed.
  Lemma apply_indirect_like (c : concept I) d :
    like (apply_indirect eqb true c d) (apply_indirect eqb false c d).
  Proof. unfold apply_indirect. walk. Qed.
  Lemma change_composition_create_like (c l r : concept I) :
    like (change_composition_create eqb true c l r) (change_composition_create eqb false c l r).
  Proof. unfold change_composition_create. walk. Qed.
  Lemma change_composition_update_like (c bl br l r : concept I) :
    like (change_composition_update eqb true c bl br l r) (change_composition_update eqb false c bl br l r).
  Proof. unfold change_composition_update. walk. Qed.
End Pieces.
#[export] Hint Resolve insert_into_like composition_of_like new_lefthand_of_like new_righthand_of_like
  change_reduction_like apply_indirect_like change_composition_create_like
  change_composition_update_like : same.

Lemma combine_change_like i o : like (combine_change true i o) (combine_change false i o).
Proof. unfold combine_change. walk. Qed.
#[export] Hint Resolve combine_change_like : same.
Lemma layers_string_like ls s : like (layers_string true ls s) (layers_string false ls s).
Proof. induction ls as [|l ls IH]; cbn [layers_string]; walk. Qed.
Lemma delta_string_like d s : like (delta_string true d s) (delta_string false d s).
Proof. apply layers_string_like. Qed.
Lemma layers_iter_string_like ls : like (layers_iter_string true ls) (layers_iter_string false ls).
Proof.
  induction ls as [|l ls IH]; [apply like_refl|]. cbn [layers_iter_string].
  apply like_obind; [exact IH|intros rest]. apply like_obind; [|intros ?; walk].
  induction (d_string l) as [|[s v] ks IHk]; [apply like_refl|].
  apply like_obind; [apply layers_string_like|intros ?]. apply like_obind; [exact IHk|intros ?]. walk.
Qed.
Lemma delta_iter_string_like d : like (delta_iter_string true d) (delta_iter_string false d).
Proof. apply layers_iter_string_like. Qed.
#[export] Hint Resolve delta_string_like delta_iter_string_like : same.

Lemma commit_with_like u deps f g s :
  (forall cs n, like (f cs n) (g cs n)) -> like (commit_with u deps f s) (commit_with u deps g s).
Proof. intros H. unfold commit_with. walk. Qed.
Lemma apply_new_like u nd s : like (apply_new true u nd s) (apply_new false u nd s).
Proof. unfold apply_new. destruct nd; repeat first [apply commit_with_like; intros ? ?|step1]. Qed.
#[export] Hint Resolve apply_new_like : same.
Lemma apply_compose_like c ch s : like (apply_compose true c ch s) (apply_compose false c ch s).
Proof. unfold apply_compose. walk. Qed.
#[export] Hint Resolve apply_compose_like : same.
Lemma apply_direct_like i d s : like (apply_direct true i d s) (apply_direct false i d s).
Proof. unfold apply_direct. walk. Qed.
#[export] Hint Resolve apply_direct_like : same.
Lemma apply_directs_like ds : forall s, like (apply_directs true ds s) (apply_directs false ds s).
Proof.
  induction ds as [|[i d] ds IH]; intros s; cbn [apply_directs]; [apply like_refl|].
  apply like_obind; [apply apply_direct_like|intros ?; apply IH].
Qed.
Lemma to_committed_crash s i : (exists n, to_committed s i = Ok n) \/ (exists e, debug_only e /\ to_committed s i = Panic e).
Proof.
  unfold to_committed. destruct i as [n|u]; [left; eauto|]. destruct (aget Nat.eqb u (prev_unc s));
    [left; eexists; reflexivity|right; eexists; split; [|reflexivity]; site].
Qed.
Lemma apply_string_like str ch s : like (apply_string true str ch s) (apply_string false str ch s).
Proof.
  unfold apply_string. destruct ch as [a|b a|b]; walk.
  destruct (to_committed_crash s b) as [[n ->]|[e [D ->]]]; [|apply like_panic; exact D].
  cbn [obind]. apply like_dassert. site.
Qed.
Lemma apply_strings_like ss : forall s, like (apply_strings true ss s) (apply_strings false ss s).
Proof.
  induction ss as [|[k v] ss IH]; intros s; cbn [apply_strings]; [apply like_refl|].
  apply like_obind; [apply apply_string_like|intros ?; apply IH].
Qed.
#[export] Hint Resolve apply_directs_like apply_strings_like : same.
Lemma apply_like d s : like (apply true d s) (apply false d s).
Proof. unfold apply. walk. Qed.
#[export] Hint Resolve apply_like : same.

(** ** Reading *)
Section Readers.
  Variable f : owner -> forall A : Type, list A -> list A.
  Lemma m_change_reduction_like m ch :
    like (m_change_reduction (debug f) m ch) (m_change_reduction (release f) m ch).
  Proof. unfold m_change_reduction. cbn [dbg debug release]. walk. Qed.
  Lemma m_apply_indirect_like m d :
    like (m_apply_indirect (debug f) m d) (m_apply_indirect (release f) m d).
  Proof. unfold m_apply_indirect. cbn [dbg debug release]. walk. Qed.
  Lemma m_maybe_composition_like m :
    like (m_maybe_composition (debug f) m) (m_maybe_composition (release f) m).
  Proof. unfold m_maybe_composition. cbn [dbg debug release]. walk. Qed.
  Hint Resolve m_change_reduction_like m_apply_indirect_like m_maybe_composition_like : same.
  Lemma compose_delta_like m l r :
    like (compose_delta (debug f) m l r) (compose_delta (release f) m l r).
  Proof. unfold compose_delta. walk. Qed.
  Lemma same_from m : m_reduces_from (debug f) m = m_reduces_from (release f) m.
  Proof. reflexivity. Qed.
  Lemma same_hands m h : m_iter_hand_of (debug f) m h = m_iter_hand_of (release f) m h.
  Proof. reflexivity. Qed.
  Lemma same_compositions m h : m_iter_composition_ids (debug f) m h = m_iter_composition_ids (release f) m h.
  Proof. reflexivity. Qed.
  Lemma same_entries d : delta_iter_concepts (debug f) d = delta_iter_concepts (release f) d.
  Proof. unfold delta_iter_concepts. induction (layers d) as [|l ls IH]; cbn [layers_iter_concepts]; [reflexivity|]. rewrite IH. reflexivity. Qed.

  Variables (snap : snapshot) (d : delta).
  Lemma read_step_like i m cd : like (read_step (debug f) i m cd) (read_step (release f) i m cd).
  Proof. unfold read_step. cbn [dbg debug release]. walk. Qed.
  Hint Resolve read_step_like : same.
  Lemma read_steps_like i cds : forall m, like (read_steps (debug f) i m cds) (read_steps (release f) i m cds).
  Proof.
    induction cds as [|cd cds IH]; intros m; cbn [read_steps]; [apply like_refl|].
    apply like_obind; [apply read_step_like|intros ?; apply IH].
  Qed.
  Hint Resolve read_steps_like : same.
  Lemma maybe_read_concept_like i :
    like (maybe_read_concept (debug f) snap d i) (maybe_read_concept (release f) snap d i).
  Proof. unfold maybe_read_concept. walk. Qed.
  Hint Resolve maybe_read_concept_like : same.
  Lemma read_concept_like i : like (read_concept (debug f) snap d i) (read_concept (release f) snap d i).
  Proof. unfold read_concept. walk. Qed.
  Hint Resolve read_concept_like : same.
  Lemma maybe_concrete_like i :
    like (maybe_concrete_concept_type (debug f) snap d i) (maybe_concrete_concept_type (release f) snap d i).
  Proof. unfold maybe_concrete_concept_type. walk. Qed.
  Hint Resolve maybe_concrete_like : same.
  Lemma concrete_concept_type_like i :
    like (concrete_concept_type (debug f) snap d i) (concrete_concept_type (release f) snap d i).
  Proof. unfold concrete_concept_type. walk. Qed.
  Hint Resolve concrete_concept_type_like : same.
  Lemma concrete_scan_deltas_like i cds : forall acc,
    like (concrete_scan_deltas (debug f) i acc cds) (concrete_scan_deltas (release f) i acc cds).
  Proof.
    induction cds as [|cd cds IH]; intros acc; cbn [concrete_scan_deltas]; [apply like_refl|].
    cbn [dbg debug release]. walk; apply IH.
  Qed.
  Hint Resolve concrete_scan_deltas_like : same.
  Lemma concrete_scan_like cc es : forall acc,
    like (concrete_scan (debug f) snap d cc acc es) (concrete_scan (release f) snap d cc acc es).
  Proof.
    induction es as [|[i cds] es IH]; intros acc; cbn [concrete_scan]; [apply like_refl|]. walk.
  Qed.
  Hint Resolve concrete_scan_like : same.
  Lemma concrete_concept_id_like cc :
    like (concrete_concept_id (debug f) snap d cc) (concrete_concept_id (release f) snap d cc).
  Proof. unfold concrete_concept_id. rewrite same_entries. walk. Qed.
  Hint Resolve concrete_concept_id_like : same.
  Lemma get_string_concept_like s :
    like (get_string_concept (debug f) snap d s) (get_string_concept (release f) snap d s).
  Proof. unfold get_string_concept. cbn [dbg debug release]. walk. Qed.
  Hint Resolve get_string_concept_like : same.
  Lemma labellee_loop_like n : forall cs,
    like (labellee_loop (debug f) snap d n cs) (labellee_loop (release f) snap d n cs).
  Proof.
    induction n as [|n IH]; intros [|c cs]; cbn [labellee_loop]; walk; try (rewrite same_from; apply IH).
  Qed.
  Hint Resolve labellee_loop_like : same.
  Lemma get_labellee_like n c : like (get_labellee (debug f) snap d n c) (get_labellee (release f) snap d n c).
  Proof. unfold get_labellee. walk; try (rewrite same_from; walk). Qed.
  Hint Resolve get_labellee_like : same.
  Lemma concept_from_label_like n s :
    like (concept_from_label (debug f) snap d n s) (concept_from_label (release f) snap d n s).
  Proof. unfold concept_from_label. walk. Qed.
  Lemma get_normal_form_like n : forall c,
    like (get_normal_form (debug f) snap d n c) (get_normal_form (release f) snap d n c).
  Proof. induction n as [|n IH]; intros c; cbn [get_normal_form]; walk. Qed.
  Hint Resolve get_normal_form_like : same.
  Lemma get_concept_of_label_like c :
    like (get_concept_of_label (debug f) snap d c) (get_concept_of_label (release f) snap d c).
  Proof. unfold get_concept_of_label. walk. Qed.
  Hint Resolve get_concept_of_label_like : same.
  Lemma get_label_like n : forall c, like (get_label (debug f) snap d n c) (get_label (release f) snap d n c).
  Proof. induction n as [|n IH]; intros c; cbn [get_label]; walk. Qed.
  Lemma get_reduction_of_composition_like n : forall c,
    like (get_reduction_of_composition (debug f) snap d n c) (get_reduction_of_composition (release f) snap d n c).
  Proof. induction n as [|n IH]; intros c; cbn [get_reduction_of_composition]; walk. Qed.
  Lemma righthand_of_without_label_is_empty_like c :
    like (righthand_of_without_label_is_empty (debug f) snap d c) (righthand_of_without_label_is_empty (release f) snap d c).
  Proof. unfold righthand_of_without_label_is_empty. walk. Qed.
  Hint Resolve righthand_of_without_label_is_empty_like : same.
  Lemma is_disconnected_like c :
    like (is_disconnected (debug f) snap d c) (is_disconnected (release f) snap d c).
  Proof. unfold is_disconnected. apply like_obind; [walk|intros ?]. rewrite same_hands, same_from. walk. Qed.
  Lemma contains_like n : forall o i, like (contains (debug f) snap d n o i) (contains (release f) snap d n o i).
  Proof. induction n as [|n IH]; intros o i; cbn [contains]; walk. Qed.
  Hint Resolve contains_like : same.
  Lemma check_reductions_like n : forall o i,
    like (check_reductions (debug f) snap d n o i) (check_reductions (release f) snap d n o i).
  Proof. induction n as [|n IH]; intros o i; cbn [check_reductions]; walk. Qed.
  Lemma bind_quantifier_like t c : like (bind_quantifier true t c) (bind_quantifier false t c).
  Proof. unfold bind_quantifier. walk. Qed.
  Hint Resolve bind_quantifier_like : same.
  Lemma bind_concept_to_syntax_like t c :
    like (bind_concept_to_syntax (debug f) snap d t c) (bind_concept_to_syntax (release f) snap d t c).
  Proof. unfold bind_concept_to_syntax. cbn [dbg debug release]. walk. Qed.

  (** Reading is pure: it gives a concept or crashes. *)
  Lemma read_concept_crash cfg i :
    (exists m, read_concept cfg snap d i = Ok m) \/ (exists e, debug_only e /\ read_concept cfg snap d i = Panic e).
  Proof.
    unfold read_concept, maybe_read_concept.
    assert (U : forall A (x : option A) s, debug_only s ->
      (exists m, unwrap x s = Ok m) \/ (exists e, debug_only e /\ unwrap x s = Panic e))
      by (intros A [x|] s S; [left; eexists; reflexivity|right; eexists; split; [exact S|reflexivity]]).
    destruct (delta_concept d i) as [cds|]; [|cbn [obind]; apply U; site].
    enough (X : forall m g,
      (exists x, obind (read_steps cfg i m cds) (fun m => match m with Some m => Ok m | None => unwrap g "No concept with id"%string end) = Ok x) \/
      (exists e, debug_only e /\ obind (read_steps cfg i m cds) (fun m => match m with Some m => Ok m | None => unwrap g "No concept with id"%string end) = Panic e))
      by apply X.
    intros m g. revert m. induction cds as [|cd cds IH]; intros m; cbn [read_steps].
    - destruct m; cbn [obind]; [left; eauto|apply U; site].
    - assert (D : forall b s, dassert (dbg cfg) b s = Ok tt \/ dassert (dbg cfg) b s = Panic s)
        by (intros b s; unfold dassert; destruct (dbg cfg && negb b)%bool; auto).
      assert (K : (exists m', read_step cfg i m cd = Ok m') \/ (exists e, debug_only e /\ read_step cfg i m cd = Panic e)).
      { unfold read_step.
        destruct cd as [[nd|c ch|u ch|r]|x];
          repeat (match goal with |- context [dassert ?a ?b ?s] =>
            destruct (D b s) as [->| ->]; cbn [obind]; [|right; eexists; split; [|reflexivity]; site] end);
          try solve [left; eexists; reflexivity | right; eexists; split; [|reflexivity]; site].
        - destruct m as [m|]; cbn [unwrap obind]; [|right; eexists; split; [|reflexivity]; site].
          unfold m_change_reduction, change_reduction. destruct m as [o chs comp red|c]; [left; eexists; reflexivity|].
          destruct (c_spec c), ch; cbn [omap obind];
            try solve [left; eexists; reflexivity].
          match goal with |- context [dassert ?a ?b ?s] => destruct (D b s) as [->| ->] end; [left; eexists; reflexivity|right; eexists; split; [|reflexivity]; site].
        - destruct m as [m|]; cbn [unwrap obind]; [|right; eexists; split; [|reflexivity]; site].
          unfold m_apply_indirect, apply_indirect, insert_into. destruct m as [o chs comp red|c]; [left; eexists; reflexivity|].
          destruct x; try solve [left; eexists; reflexivity];
            try (destruct (c_spec c); solve [left; eexists; reflexivity|right; eexists; split; [|reflexivity]; site]);
            (destruct (aget cid_eqb _ _); [|left; eexists; reflexivity];
             match goal with |- context [dassert ?a ?b ?s] => destruct (D b s) as [->| ->] end;
             [left; eexists; reflexivity|right; eexists; split; [|reflexivity]; site]). }
      destruct K as [[m' ->]|[e [S ->]]]; cbn [obind]; [apply IH|right; eexists; split; [exact S|reflexivity]].
  Qed.
End Readers.
#[export] Hint Resolve m_change_reduction_like compose_delta_like read_concept_like concrete_concept_type_like
  concrete_concept_id_like get_string_concept_like concept_from_label_like get_normal_form_like
  get_concept_of_label_like get_label_like get_reduction_of_composition_like is_disconnected_like contains_like
  check_reductions_like bind_concept_to_syntax_like : same.

(** ** Searches *)
Definition slike {A} (m1 m2 : SM A) : Prop := forall s, like (m1 s) (m2 s).
Lemma slike_refl A (m : SM A) : slike m m.
Proof. intros s. apply like_refl. Qed.
Lemma slike_bind A B (m1 m2 : SM A) (f g : A -> SM B) :
  slike m1 m2 -> (forall a, slike (f a) (g a)) -> slike (sbind m1 f) (sbind m2 g).
Proof. intros H K s. unfold sbind. apply like_obind; [apply H|]. intros [a s']. apply K. Qed.
Lemma slike_lift A (x y : outcome A) : like x y -> slike (slift x) (slift y).
Proof. intros H s. unfold slift. apply like_obind; [exact H|]. intros a. apply like_refl. Qed.
Lemma slike_smap A B (f : A -> B) (m1 m2 : SM A) : slike m1 m2 -> slike (smap f m1) (smap f m2).
Proof. intros H. unfold smap. apply slike_bind; [exact H|]. intros a. apply slike_refl. Qed.
Lemma slike_and_then A B (m1 m2 : SM (option A)) (f g : A -> SM (option B)) :
  slike m1 m2 -> (forall a, slike (f a) (g a)) -> slike (and_then m1 f) (and_then m2 g).
Proof.
  intros H K. unfold and_then. apply slike_bind; [exact H|]. intros [a|]; [apply K|apply slike_refl].
Qed.
Lemma slike_or_else A (m1 m2 n1 n2 : SM (option A)) :
  slike m1 m2 -> slike n1 n2 -> slike (or_else m1 n1) (or_else m2 n2).
Proof.
  intros H K. unfold or_else. apply slike_bind; [exact H|]. intros [a|]; [apply slike_refl|exact K].
Qed.
Lemma slike_opt_then A B (o : option A) (f g : A -> SM (option B)) :
  (forall a, slike (f a) (g a)) -> slike (opt_then o f) (opt_then o g).
Proof. intros K. destruct o; [apply K|apply slike_refl]. Qed.
Lemma slike_find_map A B (f g : A -> SM (option B)) l :
  (forall a, slike (f a) (g a)) -> slike (find_map f l) (find_map g l).
Proof.
  intros K. induction l as [|a l IH]; cbn [find_map]; [apply slike_refl|].
  apply slike_or_else; [apply K|exact IH].
Qed.
Create HintDb ssame.
#[export] Hint Constants Opaque : ssame.
#[export] Hint Resolve slike_refl : ssame.

Ltac step2 :=
  match goal with
  | |- slike (sbind _ _) (sbind _ _) => apply slike_bind; [|intros ?]
  | |- slike (slift _) (slift _) => apply slike_lift
  | |- slike (smap _ _) (smap _ _) => apply slike_smap
  | |- slike (and_then _ _) (and_then _ _) => apply slike_and_then; [|intros ?]
  | |- slike (or_else _ _) (or_else _ _) => apply slike_or_else
  | |- slike (opt_then _ _) (opt_then _ _) => apply slike_opt_then; intros ?
  | |- slike (find_map _ _) (find_map _ _) => apply slike_find_map; intros ?
  | |- slike (match ?x with _ => _ end) (match ?x with _ => _ end) => destruct x
  | |- slike (if ?x then _ else _) (if ?x then _ else _) => destruct x
  | |- slike _ _ => solve [eauto 2 with ssame]
  | |- slike _ _ => progress cbv zeta
  | |- like (dassert true _ _) (dassert false _ _) => apply like_dassert; site
  | |- like _ _ => solve [eauto 2 with same]
  end.
Ltac ssame := repeat step2.

Record ops_like (o1 o2 : ops) : Prop := {
  oa_reduce : forall e t, slike (o_reduce o1 e t) (o_reduce o2 e t);
  oa_to_ast : forall e c, slike (o_to_ast o1 e c) (o_to_ast o2 e c);
  oa_assoc : forall e t, slike (o_assoc o1 e t) (o_assoc o2 e t);
  oa_expand : forall e t, slike (o_expand o1 e t) (o_expand o2 e t);
  oa_nf : forall e t w, slike (o_nf o1 e t w) (o_nf o2 e t w);
  oa_evidence : forall e l r, slike (o_evidence o1 e l r) (o_evidence o2 e l r);
  oa_examples : forall R e g eqs (k1 k2 : ex_subs -> SM (option R)),
      (forall x, slike (k1 x) (k2 x)) ->
      slike (o_examples o1 e g eqs k1) (o_examples o2 e g eqs k2)
}.
#[export] Hint Resolve oa_reduce oa_to_ast oa_assoc oa_expand oa_nf oa_evidence : ssame.

Section Steps.
  Variables (f : owner -> forall A : Type, list A -> list A) (snap : snapshot) (rf : nat) (o1 o2 : ops).
  Hypothesis O : ops_like o1 o2.
  Hint Resolve O : ssame.
  Ltac t := repeat first [step2
    | progress rewrite ?(same_from f), ?(same_hands f), ?(same_compositions f)].
  Lemma read_like e c : slike (read (debug f) snap e c) (read (release f) snap e c).
  Proof. unfold read. t. Qed.
  Lemma concrete_id_like e c : slike (concrete_id (debug f) snap e c) (concrete_id (release f) snap e c).
  Proof. unfold concrete_id. t. Qed.
  Lemma concrete_type_like e c : slike (concrete_type (debug f) snap e c) (concrete_type (release f) snap e c).
  Proof. unfold concrete_type. t. Qed.
  Hint Resolve read_like concrete_id_like concrete_type_like : ssame.
  Lemma concrete_type_of_ast_like e x :
    slike (concrete_type_of_ast (debug f) snap e x) (concrete_type_of_ast (release f) snap e x).
  Proof. unfold concrete_type_of_ast. t. Qed.
  Lemma is_concrete_type_like e cc x :
    slike (is_concrete_type (debug f) snap e cc x) (is_concrete_type (release f) snap e cc x).
  Proof. unfold is_concrete_type. t. Qed.
  Lemma composition_of_concept_like e x :
    slike (composition_of_concept (debug f) snap e x) (composition_of_concept (release f) snap e x).
  Proof. unfold composition_of_concept. t. Qed.
  Lemma is_free_variable_like e x :
    slike (is_free_variable (debug f) snap e x) (is_free_variable (release f) snap e x).
  Proof. unfold is_free_variable. t. Qed.
  Hint Resolve concrete_type_of_ast_like is_concrete_type_like composition_of_concept_like is_free_variable_like : ssame.
  Lemma is_leaf_variable_concept_like e x :
    slike (is_leaf_variable_concept (debug f) snap e x) (is_leaf_variable_concept (release f) snap e x).
  Proof. unfold is_leaf_variable_concept. t. Qed.
  Lemma contains_bound_like e x :
    slike (contains_bound_variable_syntax (debug f) snap e x) (contains_bound_variable_syntax (release f) snap e x).
  Proof. induction x as [s c k|s c l IHl r IHr fv bv]; cbn [contains_bound_variable_syntax]; t. Qed.
  (** Looking for bound variables changes nothing. *)
  Lemma contains_bound_crash e x s :
    (exists b, contains_bound_variable_syntax (debug f) snap e x s = Ok (b, s)) \/
    (exists p, debug_only p /\ contains_bound_variable_syntax (debug f) snap e x s = Panic p).
  Proof.
    assert (R : forall c, (exists b, smap m_bounded (read (debug f) snap e c) s = Ok (b, s)) \/
                          (exists p, debug_only p /\ smap m_bounded (read (debug f) snap e c) s = Panic p)).
    { intros c. unfold smap, sbind, read, slift.
      destruct (read_concept_crash snap (e_delta e) (debug f) c) as [[m ->]|[p [D ->]]];
        [left; eexists; reflexivity|right; eexists; split; [exact D|reflexivity]]. }
    assert (H : forall i k,
      (exists b, (if smem key_eqb k (e_bound e) then sret true
                  else match i with None => sret false | Some c => smap m_bounded (read (debug f) snap e c) end) s
                 = Ok (b, s)) \/
      (exists p, debug_only p /\ (if smem key_eqb k (e_bound e) then sret true
                  else match i with None => sret false | Some c => smap m_bounded (read (debug f) snap e c) end) s
                 = Panic p)).
    { intros i k. destruct (smem key_eqb k (e_bound e)); [left; eexists; reflexivity|].
      destruct i as [c|]; [apply R|left; eexists; reflexivity]. }
    induction x as [t c k|t c l IHl r IHr fv bv]; cbn [contains_bound_variable_syntax]; [apply H|].
    unfold sbind at 1 3. destruct IHl as [[bl ->]|[p [D ->]]]; cbn [obind]; [|right; eexists; split; [exact D|reflexivity]].
    destruct bl; [left; eexists; reflexivity|].
    unfold sbind. destruct IHr as [[br ->]|[p [D ->]]]; cbn [obind]; [|right; eexists; split; [exact D|reflexivity]].
    destruct br; [left; eexists; reflexivity|apply H].
  Qed.
  Hint Resolve is_leaf_variable_concept_like contains_bound_like : ssame.
  Lemma check_generalisation_like e x : forall g,
    slike (check_generalisation (debug f) snap e x g) (check_generalisation (release f) snap e x g).
  Proof. induction x as [s c k|s c l IHl r IHr fv bv]; intros g; cbn [check_generalisation]; t. Qed.
  Lemma add_compositions_like e h gs : forall acc,
    slike (add_compositions (debug f) snap e h gs acc) (add_compositions (release f) snap e h gs acc).
  Proof. induction gs as [|g gs IH]; intros acc; cbn [add_compositions]; t. Qed.
  Hint Resolve check_generalisation_like add_compositions_like : ssame.
  Lemma find_generalisations_like e x :
    slike (find_generalisations (debug f) snap e x) (find_generalisations (release f) snap e x).
  Proof. induction x as [s c k|s c l IHl r IHr fv bv]; cbn [find_generalisations]; t. Qed.
  Hint Resolve find_generalisations_like : ssame.
  Lemma equivalence_set_like e c :
    slike (equivalence_set (debug f) snap e c) (equivalence_set (release f) snap e c).
  Proof. unfold equivalence_set. t. Qed.
  Lemma composition_concept_like e l r :
    slike (composition_concept (debug f) snap e l r) (composition_concept (release f) snap e l r).
  Proof. unfold composition_concept. t. Qed.
  Lemma shuffle_like A (l : list A) : slike (shuffle (debug f) l) (shuffle (release f) l).
  Proof. apply slike_refl. Qed.
  Hint Resolve equivalence_set_like composition_concept_like shuffle_like : ssame.
  Ltac ex := match goal with |- slike (o_examples _ _ _ _ _) (o_examples _ _ _ _ _) =>
               apply (oa_examples O); intros ? end.

  Lemma display_joint_like e l r : slike (display_joint o1 e l r) (display_joint o2 e l r).
  Proof. unfold display_joint. t. Qed.
  Hint Resolve display_joint_like : ssame.
  Lemma join_like e l r : slike (join o1 e l r) (join o2 e l r).
  Proof. unfold join. t. Qed.
  Hint Resolve join_like : ssame.
  Lemma combine_ast_like e l r : slike (combine_ast (debug f) snap o1 e l r) (combine_ast (release f) snap o2 e l r).
  Proof. unfold combine_ast. t. Qed.
  Hint Resolve combine_ast_like : ssame.
  Lemma contract_pair_like e l r :
    slike (contract_pair (debug f) snap rf o1 e l r) (contract_pair (release f) snap rf o2 e l r).
  Proof. unfold contract_pair. t. Qed.
  Hint Resolve contract_pair_like : ssame.
  Lemma substitute_like e t m :
    slike (substitute (debug f) snap rf o1 e t m) (substitute (release f) snap rf o2 e t m).
  Proof. induction t as [s c k|s c l IHl r IHr fv bv]; cbn [substitute]; t. Qed.
  Hint Resolve substitute_like : ssame.
  Lemma concrete_ast_like e cc : slike (concrete_ast (debug f) snap o1 e cc) (concrete_ast (release f) snap o2 e cc).
  Proof. unfold concrete_ast. t. Qed.
  Hint Resolve concrete_ast_like : ssame.
  Lemma get_associativity_like e x :
    slike (get_associativity (debug f) snap o1 e x) (get_associativity (release f) snap o2 e x).
  Proof. unfold get_associativity. t. Qed.
  Lemma to_ast_like e c : slike (to_ast (debug f) snap rf o1 e c) (to_ast (release f) snap rf o2 e c).
  Proof. unfold to_ast. t. Qed.
  Lemma expand_like e x : slike (expand (debug f) snap o1 e x) (expand (release f) snap o2 e x).
  Proof. unfold expand. t. Qed.
  Lemma normal_form_like e x w : slike (normal_form o1 e x w) (normal_form o2 e x w).
  Proof. unfold normal_form. t. Qed.
  Lemma recursively_reduce_like e x : slike (recursively_reduce o1 e x) (recursively_reduce o2 e x).
  Proof. unfold recursively_reduce. t. Qed.
  Hint Resolve recursively_reduce_like : ssame.
  Lemma determine_evidence_like e l r : slike (determine_evidence o1 e l r) (determine_evidence o2 e l r).
  Proof. unfold determine_evidence. t. Qed.
  Lemma determine_reduction_truth_like e l r :
    slike (determine_reduction_truth o1 e l r) (determine_reduction_truth o2 e l r).
  Proof. unfold determine_reduction_truth. t. Qed.
  Hint Resolve determine_reduction_truth_like : ssame.
  Lemma compare_one_like e h x : slike (compare_one (debug f) snap o1 e h x) (compare_one (release f) snap o2 e h x).
  Proof. unfold compare_one. t. Qed.
  Hint Resolve compare_one_like : ssame.
  Lemma compare_like e a b : slike (Search.compare (debug f) snap o1 e a b) (Search.compare (release f) snap o2 e a b).
  Proof. unfold Search.compare. t. Qed.
  Hint Resolve compare_like : ssame.
  Lemma right_branch_like e l rl rr :
    slike (reduce_by_expanded_right_branch (debug f) snap o1 e l rl rr)
           (reduce_by_expanded_right_branch (release f) snap o2 e l rl rr).
  Proof. unfold reduce_by_expanded_right_branch. t. Qed.
  Hint Resolve right_branch_like : ssame.
  Lemma find_example_like e g ts : slike (find_example o1 e g ts) (find_example o2 e g ts).
  Proof. unfold find_example. ex. t. Qed.
  Hint Resolve find_example_like : ssame.
  Lemma half_generalisation_like e g n eqs h :
    slike (half_generalisation (debug f) snap o1 e g n eqs h) (half_generalisation (release f) snap o2 e g n eqs h).
  Proof. unfold half_generalisation. t. Qed.
  Hint Resolve half_generalisation_like : ssame.
  Lemma example_of_both_like e l r el er :
    slike (example_of_both (debug f) snap rf o1 e l r el er) (example_of_both (release f) snap rf o2 e l r el er).
  Proof. unfold example_of_both. t. ex. t. ex. t. Qed.
  Hint Resolve example_of_both_like : ssame.
  Lemma branched_examples_like R e l r eqs (k1 k2 : ex_subs -> SM (option R)) :
    (forall x, slike (k1 x) (k2 x)) ->
    slike (branched_examples (debug f) snap rf o1 e l r eqs k1) (branched_examples (release f) snap rf o2 e l r eqs k2).
  Proof. intros K. unfold branched_examples. t. Qed.
  Lemma find_examples_like R e g eqs (k1 k2 : ex_subs -> SM (option R)) :
    (forall x, slike (k1 x) (k2 x)) ->
    slike (find_examples (debug f) snap rf o1 e g eqs k1) (find_examples (release f) snap rf o2 e g eqs k2).
  Proof.
    intros K. unfold find_examples. pose proof branched_examples_like. destruct (t_exp g) as [[l r]|]; [t|].
    apply slike_bind; [|intros ?; t]. cbn [dbg debug release].
    intros s. unfold sbind. destruct (contains_bound_crash e g s) as [[b ->]|[p [D ->]]]; cbn [obind];
      [|apply like_panic; exact D]. destruct b; [apply like_refl|apply like_panic; site].
  Qed.
  Lemma inferred_like e x :
    slike (find_examples_of_inferred_reduction (debug f) snap rf o1 e x)
           (find_examples_of_inferred_reduction (release f) snap rf o2 e x).
  Proof. unfold find_examples_of_inferred_reduction. t. ex. t. Qed.
  Hint Resolve inferred_like : ssame.
  Lemma infer_reduction_like e m :
    slike (infer_reduction (debug f) snap rf o1 e m) (infer_reduction (release f) snap rf o2 e m).
  Proof. unfold infer_reduction. t. Qed.
  Hint Resolve infer_reduction_like : ssame.
  Lemma reduce_concept_like e c :
    slike (reduce_concept (debug f) snap rf o1 e c) (reduce_concept (release f) snap rf o2 e c).
  Proof. unfold reduce_concept. t. Qed.
  Hint Resolve reduce_concept_like : ssame.
  Lemma left_branch_like e ll lr r :
    slike (reduce_by_expanded_left_branch (debug f) snap o1 e ll lr r)
           (reduce_by_expanded_left_branch (release f) snap o2 e ll lr r).
  Proof. unfold reduce_by_expanded_left_branch. t. Qed.
  Hint Resolve left_branch_like : ssame.
  Lemma try_rule_like e h x g : slike (try_rule (debug f) snap rf o1 e h x g) (try_rule (release f) snap rf o2 e h x g).
  Proof. unfold try_rule. t. Qed.
  Hint Resolve try_rule_like : ssame.
  Lemma recursively_reduce_pair_like e l r :
    slike (recursively_reduce_pair (debug f) snap rf o1 e l r) (recursively_reduce_pair (release f) snap rf o2 e l r).
  Proof. unfold recursively_reduce_pair. t. Qed.
  Hint Resolve recursively_reduce_pair_like : ssame.
  Lemma reduce_pair_like e l r :
    slike (reduce_pair (debug f) snap rf o1 e l r) (reduce_pair (release f) snap rf o2 e l r).
  Proof. unfold reduce_pair. t. Qed.
  Hint Resolve reduce_pair_like : ssame.
  Lemma reduce_like e x : slike (reduce (debug f) snap rf o1 e x) (reduce (release f) snap rf o2 e x).
  Proof. unfold reduce. t. Qed.
  Lemma step_like : ops_like (step (debug f) snap rf o1) (step (release f) snap rf o2).
  Proof.
    constructor; intros; cbn [step o_reduce o_to_ast o_assoc o_expand o_nf o_evidence o_examples].
    - apply reduce_like.
    - apply to_ast_like.
    - apply get_associativity_like.
    - apply expand_like.
    - apply normal_form_like.
    - apply determine_evidence_like.
    - apply find_examples_like. assumption.
  Qed.
End Steps.


Lemma search_like f snap rf n : ops_like (search (debug f) snap rf n) (search (release f) snap rf n).
Proof.
  induction n as [|n IH]; cbn [search]; [constructor; intros; apply slike_refl|].
  apply step_like. exact IH.
Qed.

(** ** Commands *)
Definition clike {A} (m1 m2 : CM A) : Prop := forall c, like (m1 c) (m2 c).
Lemma clike_refl A (m : CM A) : clike m m.
Proof. intros c. apply like_refl. Qed.
Lemma clike_bind A B (m1 m2 : CM A) (f g : A -> CM B) :
  clike m1 m2 -> (forall a, clike (f a) (g a)) -> clike (cbind m1 f) (cbind m2 g).
Proof.
  intros H K c. unfold cbind. apply like_obind; [apply H|]. intros [[a|e] c'];
    [apply K|apply like_refl].
Qed.
Lemma clike_catch A (m1 m2 : CM A) : clike m1 m2 -> clike (catch m1) (catch m2).
Proof. intros H c. unfold catch. apply like_obind; [apply H|]. intros [a c']. apply like_refl. Qed.
Lemma clike_lift A (f g : ctx -> outcome A) : (forall c, like (f c) (g c)) -> clike (clift f) (clift g).
Proof. intros H c. unfold clift. destruct (H c) as [[s [D ->]]| ->]; [apply like_panic; exact D|apply like_refl]. Qed.
Lemma clike_irreducible A (m1 m2 n1 n2 : CM A) :
  clike m1 m2 -> clike n1 n2 -> clike (on_irreducible m1 n1) (on_irreducible m2 n2).
Proof.
  intros H K. unfold on_irreducible. apply clike_bind; [apply clike_catch; exact H|].
  intros [a|[]]; solve [apply clike_refl|exact K].
Qed.
Lemma clike_pin A (m1 m2 : CM A) : clike m1 m2 -> clike (with_pin m1) (with_pin m2).
Proof. intros H c. unfold with_pin. apply like_obind; [apply H|]. intros [a c']. apply like_refl. Qed.
Lemma with_search_like A (f g : env -> SM A) c :
  (forall e, slike (f e) (g e)) -> like (with_search f c) (with_search g c).
Proof.
  intros H. unfold with_search.
  destruct (H (new_env (c_delta c) (c_bound c)) (start_state (c_cache c) (c_tick c))) as [[x [D ->]]| ->];
    [apply like_panic; exact D|apply like_refl].
Qed.
Create HintDb csame.
#[export] Hint Constants Opaque : csame.
#[export] Hint Resolve clike_refl : csame.

Ltac step3 :=
  match goal with
  | |- clike (cbind _ _) (cbind _ _) => apply clike_bind; [|intros ?]
  | |- clike (catch _) (catch _) => apply clike_catch
  | |- clike (clift _) (clift _) => apply clike_lift; intros ?
  | |- clike (on_irreducible _ _) (on_irreducible _ _) => apply clike_irreducible
  | |- clike (with_pin _) (with_pin _) => apply clike_pin
  | |- clike (match ?x with _ => _ end) (match ?x with _ => _ end) => destruct x
  | |- clike (if ?x then _ else _) (if ?x then _ else _) => destruct x
  | |- clike _ _ => solve [eauto 2 with csame]
  | |- clike _ _ => progress cbv zeta
  | |- like (dassert true _ _) (dassert false _ _) => apply like_dassert; site
  | |- like _ _ => solve [eauto 2 with same]
  end.

Lemma lex_step_like k1 k2 st x :
  (forall t, like (k1 t) (k2 t)) -> like (lex_step k1 st x) (lex_step k2 st x).
Proof. intros H. destruct st as [ls stk]. unfold lex_step. walk; apply H. Qed.
Lemma lex_like k1 k2 s : (forall t, like (k1 t) (k2 t)) -> like (lex k1 s) (lex k2 s).
Proof.
  intros H. unfold lex. apply like_obind; [|intros ?; apply like_refl].
  generalize (@nil lexeme, @nil nat). induction s as [|x s IH]; intros st; cbn [lex_loop]; [apply like_refl|].
  apply like_obind; [apply lex_step_like; exact H|]. exact IH.
Qed.

Section Commands.
  Variables (f : owner -> forall A : Type, list A -> list A) (fuel : nat).
  Ltac t := repeat first [step3 | progress rewrite ?(same_from f), ?(same_hands f), ?(same_compositions f)].
  Lemma c_read_like i : clike (c_read (debug f) i) (c_read (release f) i).
  Proof. unfold c_read. t. Qed.
  Lemma c_concrete_id_like i : clike (c_concrete_id (debug f) i) (c_concrete_id (release f) i).
  Proof. unfold c_concrete_id. t. Qed.
  Lemma c_concrete_type_like i : clike (c_concrete_type (debug f) i) (c_concrete_type (release f) i).
  Proof. unfold c_concrete_type. t. Qed.
  Hint Resolve c_read_like c_concrete_id_like c_concrete_type_like : csame.
  Lemma c_concrete_type_of_like i : clike (c_concrete_type_of (debug f) i) (c_concrete_type_of (release f) i).
  Proof. unfold c_concrete_type_of. t. Qed.
  Hint Resolve c_concrete_type_of_like : csame.
  Lemma new_labelled_concept_like s cc l :
    clike (new_labelled_concept (debug f) s cc l) (new_labelled_concept (release f) s cc l).
  Proof. unfold new_labelled_concept. cbn [dbg debug release]. t. Qed.
  Lemma delete_reduction_like c s : clike (delete_reduction (debug f) c s) (delete_reduction (release f) c s).
  Proof. unfold delete_reduction. t. Qed.
  Lemma find_or_insert_composition_like l r :
    clike (find_or_insert_composition (debug f) l r) (find_or_insert_composition (release f) l r).
  Proof. unfold find_or_insert_composition. t. Qed.
  Hint Resolve new_labelled_concept_like delete_reduction_like find_or_insert_composition_like : csame.
  Lemma unlabel_like c s : clike (unlabel (debug f) c s) (unlabel (release f) c s).
  Proof. unfold unlabel. t. Qed.
  Lemma remove_string_like s : clike (remove_string (debug f) s) (remove_string (release f) s).
  Proof. unfold remove_string. cbn [dbg debug release]. t. Qed.
  Hint Resolve unlabel_like remove_string_like : csame.
  Lemma remove_concept_like c : clike (remove_concept (debug f) c) (remove_concept (release f) c).
  Proof. unfold remove_concept. t. Qed.
  Hint Resolve remove_concept_like : csame.
  Lemma try_delete_concept_like c s : clike (try_delete_concept (debug f) c s) (try_delete_concept (release f) c s).
  Proof. unfold try_delete_concept. t. Qed.
  Hint Resolve try_delete_concept_like : csame.
  Lemma ops_of_like c : ops_like (ops_of (debug f) fuel c) (ops_of (release f) fuel c).
  Proof. apply search_like. Qed.
  Ltac srch := intros ?c; apply with_search_like; intros ?e; pose proof (ops_of_like c) as ?O; ssame.
  Hint Resolve combine_ast_like concrete_ast_like contract_pair_like inferred_like : ssame.

  Lemma update_reduction_like c s r : clike (update_reduction (debug f) fuel c s r) (update_reduction (release f) fuel c s r).
  Proof. unfold update_reduction. t. Qed.
  Hint Resolve update_reduction_like : csame.
  Lemma label_like c s s' : clike (label (debug f) fuel c s s') (label (release f) fuel c s s').
  Proof. unfold label. t. Qed.
  Hint Resolve label_like : csame.
  Lemma relabel_like c s s' : clike (relabel (debug f) fuel c s s') (relabel (release f) fuel c s s').
  Proof. unfold relabel. t. Qed.
  Hint Resolve relabel_like : csame.
  Lemma concept_from_ast_like x : clike (concept_from_ast (debug f) fuel x) (concept_from_ast (release f) fuel x).
  Proof. induction x as [s c k|s c l IHl r IHr fv bv]; cbn [concept_from_ast]; t. Qed.
  Hint Resolve concept_from_ast_like : csame.
  Lemma insert_composition_like c l r : clike (insert_composition (debug f) fuel c l r) (insert_composition (release f) fuel c l r).
  Proof. unfold insert_composition. t. Qed.
  Hint Resolve insert_composition_like : csame.
  Lemma redefine_like c l r : clike (redefine (debug f) fuel c l r) (redefine (release f) fuel c l r).
  Proof. unfold redefine. t. Qed.
  Hint Resolve redefine_like : csame.
  Lemma redefine_composition_like c l r ol or_ :
    clike (redefine_composition (debug f) fuel c l r ol or_) (redefine_composition (release f) fuel c l r ol or_).
  Proof. unfold redefine_composition. t. Qed.
  Hint Resolve redefine_composition_like : csame.
  Lemma define_new_syntax_like s l r : clike (define_new_syntax (debug f) fuel s l r) (define_new_syntax (release f) fuel s l r).
  Proof. unfold define_new_syntax. t. Qed.
  Hint Resolve define_new_syntax_like : csame.

  Lemma c_lex_like s : clike (c_lex (debug f) fuel s) (c_lex (release f) fuel s).
  Proof.
    unfold c_lex. apply clike_lift. intros c. apply lex_like. intros x. unfold kind_of_symbol.
    walk.
  Qed.
  Lemma c_combine_like l r : clike (c_combine (debug f) fuel l r) (c_combine (release f) fuel l r).
  Proof. unfold c_combine. srch. Qed.
  Lemma c_to_ast_like id : clike (c_to_ast (debug f) fuel id) (c_to_ast (release f) fuel id).
  Proof. unfold c_to_ast. srch. Qed.
  Lemma c_assoc_like x : clike (c_assoc (debug f) fuel x) (c_assoc (release f) fuel x).
  Proof. unfold c_assoc. srch. Qed.
  Lemma c_concrete_ast_like cc : clike (c_concrete_ast (debug f) fuel cc) (c_concrete_ast (release f) fuel cc).
  Proof. unfold c_concrete_ast. srch. Qed.
  Lemma c_shuffle_like A (l : list A) : clike (c_shuffle (debug f) l) (c_shuffle (release f) l).
  Proof. apply clike_refl. Qed.
  Hint Resolve c_lex_like c_combine_like c_to_ast_like c_assoc_like c_concrete_ast_like c_shuffle_like : csame.
  Lemma related_concepts_like ids es : forall acc,
    clike (related_concepts (debug f) ids es acc) (related_concepts (release f) ids es acc).
  Proof. induction es as [|[r c] es IH]; intros acc; cbn [related_concepts]; t. Qed.
  Lemma positions_of_like ts cs : clike (positions_of (debug f) ts cs) (positions_of (release f) ts cs).
  Proof. induction cs as [|c cs IH]; cbn [positions_of]; t. Qed.
  Hint Resolve related_concepts_like positions_of_like : csame.
  Lemma ast_from_syntax_leaf_like k s c :
    clike (ast_from_syntax_leaf (debug f) fuel k s c) (ast_from_syntax_leaf (release f) fuel k s c).
  Proof. unfold ast_from_syntax_leaf. t. Qed.
  Lemma ast_from_pair_like l r : clike (ast_from_pair (debug f) fuel l r) (ast_from_pair (release f) fuel l r).
  Proof. unfold ast_from_pair. t. Qed.
  Lemma precedes_like a b : clike (precedes (debug f) fuel a b) (precedes (release f) fuel a b).
  Proof. unfold precedes. apply clike_bind; [|intros ?; apply c_concrete_type_of_like]. srch. Qed.
  Hint Resolve ast_from_syntax_leaf_like ast_from_pair_like precedes_like : csame.
  Lemma place_concept_like c all lowest :
    clike (place_concept (debug f) fuel c all lowest) (place_concept (release f) fuel c all lowest).
  Proof. induction lowest as [|l lowest IH]; cbn [place_concept]; t. Qed.
  Hint Resolve place_concept_like : csame.
  Lemma lowest_concepts_like cs : forall lowest,
    clike (lowest_concepts (debug f) fuel cs lowest) (lowest_concepts (release f) fuel cs lowest).
  Proof. induction cs as [|c cs IH]; intros lowest; cbn [lowest_concepts]; t. Qed.
  Hint Resolve lowest_concepts_like : csame.
  Lemma lowest_precedence_info_like ts :
    clike (lowest_precedence_info (debug f) fuel ts) (lowest_precedence_info (release f) fuel ts).
  Proof. unfold lowest_precedence_info. t. Qed.
  Lemma common_associativity_like ts : forall a,
    clike (common_associativity (debug f) fuel a ts) (common_associativity (release f) fuel a ts).
  Proof. induction ts as [|x ts IH]; intros a; cbn [common_associativity]; t. Qed.
  Hint Resolve lowest_precedence_info_like common_associativity_like : csame.
  Section Lists.
    Variables p1 p2 : list tree -> CM tree.
    Hypothesis P : forall ts, clike (p1 ts) (p2 ts).
    Lemma try_fold_handler_like ts st lp a :
      clike (try_fold_handler (debug f) fuel p1 ts st lp a) (try_fold_handler (release f) fuel p2 ts st lp a).
    Proof. unfold try_fold_handler. t. Qed.
    Hint Resolve try_fold_handler_like : csame.
    Lemma fold_right_assoc_like ts lps : forall min tail,
      clike (fold_right_assoc (debug f) fuel p1 ts min tail lps) (fold_right_assoc (release f) fuel p2 ts min tail lps).
    Proof. induction lps as [|x lps IH]; intros min tail; cbn [fold_right_assoc]; t. Qed.
    Lemma fold_left_assoc_like ts lps : forall st,
      clike (fold_left_assoc (debug f) fuel p1 ts st lps) (fold_left_assoc (release f) fuel p2 ts st lps).
    Proof. induction lps as [|x lps IH]; intros st; cbn [fold_left_assoc]; t. Qed.
  End Lists.
  Hint Resolve fold_right_assoc_like fold_left_assoc_like : csame.
  Lemma ast_from_syntax_list_like n : forall ts,
    clike (ast_from_syntax_list (debug f) fuel n ts) (ast_from_syntax_list (release f) fuel n ts).
  Proof. induction n as [|n IH]; intros ts; cbn [ast_from_syntax_list]; t. Qed.
  Hint Resolve ast_from_syntax_list_like : csame.
  Lemma parse_list_like ts : clike (parse_list (debug f) fuel ts) (parse_list (release f) fuel ts).
  Proof. unfold parse_list. t. Qed.
  Hint Resolve parse_list_like : csame.
  Fixpoint ast_from_nested_syntax_like (n : nested) :
    clike (ast_from_nested_syntax (debug f) fuel n) (ast_from_nested_syntax (release f) fuel n).
  Proof.
    destruct n as [k s c|cs s]; cbn [ast_from_nested_syntax]; [t|].
    apply clike_bind; [|intros ts; t].
    induction cs as [|x cs IH]; [t|]. t.
  Defined.
  Hint Resolve ast_from_nested_syntax_like : csame.
  Lemma syntax_list_like n :
    clike (syntax_list_for_nested_syntax (debug f) fuel n) (syntax_list_for_nested_syntax (release f) fuel n).
  Proof.
    destruct n as [k s c|cs s]; cbn [syntax_list_for_nested_syntax]; [t|].
    induction cs as [|x cs IH]; t.
  Qed.
  Hint Resolve syntax_list_like : csame.
  Lemma ast_from_expression_like s : clike (ast_from_expression (debug f) fuel s) (ast_from_expression (release f) fuel s).
  Proof. unfold ast_from_expression. t. Qed.
  Hint Resolve ast_from_expression_like : csame.

  Lemma c_expand_like x : clike (c_expand (debug f) fuel x) (c_expand (release f) fuel x).
  Proof. unfold c_expand. srch. Qed.
  Lemma c_reduce_like x : clike (c_reduce (debug f) fuel x) (c_reduce (release f) fuel x).
  Proof. unfold c_reduce. srch. Qed.
  Lemma c_normal_form_like x : clike (c_normal_form (debug f) fuel x) (c_normal_form (release f) fuel x).
  Proof. unfold c_normal_form. srch. Qed.
  Lemma c_inferred_like x : clike (c_inferred (debug f) fuel x) (c_inferred (release f) fuel x).
  Proof. intros c. apply with_search_like. intros e. apply inferred_like. apply ops_of_like. Qed.
  Lemma c_contract_like l r : clike (c_contract (debug f) fuel l r) (c_contract (release f) fuel l r).
  Proof. intros c. apply with_search_like. intros e. apply contract_pair_like. apply ops_of_like. Qed.
  Hint Resolve c_expand_like c_reduce_like c_normal_form_like c_inferred_like c_contract_like : csame.
  Lemma commit_like : clike (commit (debug f)) (commit (release f)).
  Proof. intros c. unfold commit. cbn [dbg debug release]. walk. Qed.
  Lemma try_removing_reduction_like x :
    clike (try_removing_reduction (debug f) x) (try_removing_reduction (release f) x).
  Proof. unfold try_removing_reduction. t. Qed.
  Hint Resolve commit_like try_removing_reduction_like : csame.
  Lemma execute_reduction_like x nf : clike (execute_reduction (debug f) fuel x nf) (execute_reduction (release f) fuel x nf).
  Proof. unfold execute_reduction. t. Qed.
  Lemma define_like x y : clike (define (debug f) fuel x y) (define (release f) fuel x y).
  Proof. unfold define. t. Qed.
  Hint Resolve execute_reduction_like define_like : csame.
  Lemma execute_composition_like x y : clike (execute_composition (debug f) fuel x y) (execute_composition (release f) fuel x y).
  Proof. unfold execute_composition. t. Qed.
  Hint Resolve execute_composition_like : csame.
  Lemma match_righthand_pair_like n : forall l rl rr,
    clike (match_righthand_pair (debug f) fuel n l rl rr) (match_righthand_pair (release f) fuel n l rl rr).
  Proof. induction n as [|n IH]; intros l rl rr; cbn [match_righthand_pair]; t. Qed.
  Hint Resolve match_righthand_pair_like : csame.
  Section Calls.
    Variables (ca1 ca2 : tree -> CM text) (cp1 cp2 : tree -> tree -> CM text).
    Hypothesis C : forall x, clike (ca1 x) (ca2 x).
    Hypothesis CP : forall x y, clike (cp1 x y) (cp2 x y).
    Hint Resolve C CP : csame.
    Lemma reduce_and_call_pair_like l r :
      clike (reduce_and_call_pair (debug f) fuel cp1 l r) (reduce_and_call_pair (release f) fuel cp2 l r).
    Proof. unfold reduce_and_call_pair. t. Qed.
    Lemma try_reducing_like x :
      clike (try_reducing_then_call (debug f) fuel ca1 x) (try_reducing_then_call (release f) fuel ca2 x).
    Proof. unfold try_reducing_then_call. t. Qed.
    Hint Resolve reduce_and_call_pair_like try_reducing_like : csame.
    Lemma call_step_like x : clike (call_step (debug f) fuel ca1 cp1 x) (call_step (release f) fuel ca2 cp2 x).
    Proof. unfold call_step. t. Qed.
    Lemma call_let_like r : clike (call_let (debug f) fuel r) (call_let (release f) fuel r).
    Proof. unfold call_let. t. Qed.
    Hint Resolve call_let_like : csame.
    Lemma call_pair_step_like l r :
      clike (call_pair_step (debug f) fuel ca1 cp1 l r) (call_pair_step (release f) fuel ca2 cp2 l r).
    Proof. unfold call_pair_step. t. Qed.
  End Calls.
  Lemma calls_like n :
    (forall x, clike (fst (calls (debug f) fuel n) x) (fst (calls (release f) fuel n) x)) /\
    (forall x y, clike (snd (calls (debug f) fuel n) x y) (snd (calls (release f) fuel n) x y)).
  Proof.
    induction n as [|n [H1 H2]]; cbn [calls fst snd]; [split; intros; apply clike_refl|].
    split; intros; [apply call_step_like|apply call_pair_step_like]; assumption.
  Qed.
  Lemma call_like x : clike (call (debug f) fuel x) (call (release f) fuel x).
  Proof. apply calls_like. Qed.
  Hint Resolve call_like : csame.
  Lemma run_command_like s : clike (run_command (debug f) fuel s) (run_command (release f) fuel s).
  Proof. unfold run_command. t. Qed.
  Hint Resolve run_command_like : csame.
  Lemma execute_without_closing_scope_like s :
    clike (execute_without_closing_scope (debug f) fuel s) (execute_without_closing_scope (release f) fuel s).
  Proof. unfold execute_without_closing_scope. t. Qed.
  Lemma execute_like s c : like (execute (debug f) fuel s c) (execute (release f) fuel s c).
  Proof.
    unfold execute. apply like_obind; [apply execute_without_closing_scope_like|].
    intros [r c']. apply like_refl.
  Qed.
  Lemma run_session_like cmds : forall c, like (run_session (debug f) fuel cmds c) (run_session (release f) fuel cmds c).
  Proof.
    induction cmds as [|s cmds IH]; intros c; cbn [run_session]; [apply like_refl|].
    apply like_obind; [apply execute_like|]. intros [r c']. apply like_obind; [apply IH|].
    intros [rs c'']. apply like_refl.
  Qed.
  Lemma run_setup_like cmds : clike (run_setup (debug f) fuel cmds) (run_setup (release f) fuel cmds).
  Proof.
    induction cmds as [|s cmds IH]; cbn [run_setup]; [t|]. cbn [dbg debug release]. apply clike_bind; [|intros r; t].
    intros c. apply like_obind; [apply execute_like|]. intros [r c']. apply like_refl.
  Qed.
  Lemma label_all_like l ls : clike (label_all (debug f) l ls) (label_all (release f) l ls).
  Proof. induction ls as [|[s cc] ls IH]; cbn [label_all]; t. Qed.
  Hint Resolve run_setup_like label_all_like : csame.
  Lemma label_concrete_concepts_like :
    clike (label_concrete_concepts (debug f)) (label_concrete_concepts (release f)).
  Proof. unfold label_concrete_concepts. t. Qed.
  Hint Resolve label_concrete_concepts_like : csame.
  Lemma new_context_like : like (new_context (debug f) fuel) (new_context (release f) fuel).
  Proof.
    unfold new_context. apply like_obind; [|intros [r c]; apply like_refl].
    assert (H : clike (setup (debug f) fuel) (setup (release f) fuel)) by (unfold setup; t). apply H.
  Qed.
End Commands.
