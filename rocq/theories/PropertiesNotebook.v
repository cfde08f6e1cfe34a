(** C63: sessions of declarations, forgetting them and questions about them. *)
From Verif Require Import Build Start Lexer LexerSpec Snapshot Search Context StoreSpec NameSpec StoreInv StoreFacts MapFacts AstFacts History Steps Keep Sim Meaning Settled Links CacheLife Displays Sample Witness NameWitness
  Spelled Asking Unruled Answers Replies Checks Phrases Groups Flat Notebook Notes PropertiesAnswers PropertiesWords PropertiesUttered.
From Coq Require Import String List Relations PeanoNat Bool Lia.
Import ListNotations.
Local Open Scope string_scope.

(** ** C63 *)
Theorem C63_notes_are_answered cfg fuel c V B notes answers c' :
  fair cfg -> dbg cfg = true -> reachable_with true (links_safe true) c -> c_cache c = empty_cache ->
  notebook (c_snap c) V B -> ((exists n, In n notes /\ questioning n) -> inquiry (c_snap c) V) ->
  ((exists n, In n notes /\ expression n) -> phrasing (c_snap c) V) -> ((exists n, In n notes /\ plain n) -> unbracketed (c_snap c) V) ->
  ((exists n, In n notes /\ doubtful n) -> uninvolved (c_snap c) V) -> ending (map fst V) B -> written (c_snap c) (map fst V) B notes ->
  run_session cfg fuel (map line notes) c = Ok (answers, c') -> Forall2 silent notes answers -> replies (tidy notes) B notes answers.
Proof.
  intros F D R K NB IQ PH UB UI EN WR E SI. destruct (nb_arrow _ _ _ NB) as (ar & Ja & Ka).
  refine (proj1 (notes_answered cfg fuel F D (tidy notes) (c_snap c) (map fst V) B notes WR c c' V ar answers R Ja Ka (asked_empty _ _ _ _ R K) NB IQ PH UB UI (fun T => T) eq_refl EN _ E SI)).
  intros u N. right. exact N.
Qed.
Print Assumptions C63_notes_are_answered.

(** After the session, of the known words those and only those are stored as reducing to one another that were declared
    and not forgotten. *)
Theorem C63_notes_are_kept cfg fuel c V B notes answers c' :
  fair cfg -> dbg cfg = true -> reachable_with true (links_safe true) c -> c_cache c = empty_cache ->
  notebook (c_snap c) V B -> ((exists n, In n notes /\ questioning n) -> inquiry (c_snap c) V) ->
  ((exists n, In n notes /\ expression n) -> phrasing (c_snap c) V) -> ((exists n, In n notes /\ plain n) -> unbracketed (c_snap c) V) ->
  ((exists n, In n notes /\ doubtful n) -> uninvolved (c_snap c) V) -> ending (map fst V) B -> written (c_snap c) (map fst V) B notes ->
  run_session cfg fuel (map line notes) c = Ok (answers, c') -> Forall2 silent notes answers ->
  forall w, In w (words_known (map fst V) notes) -> exists k, means (c_snap c') w k /\
    forall l, reduces (c_snap c') k l <-> exists v, In (w, v) (declared B notes) /\ means (c_snap c') v l.
Proof.
  intros F D R K NB IQ PH UB UI EN WR E SI. destruct (nb_arrow _ _ _ NB) as (ar & Ja & Ka).
  assert (KP : kept c' (map fst V) B notes).
  { refine (proj2 (notes_answered cfg fuel F D (tidy notes) (c_snap c) (map fst V) B notes WR c c' V ar answers R Ja Ka (asked_empty _ _ _ _ R K) NB IQ PH UB UI (fun T => T) eq_refl EN _ E SI)).
    intros u N. right. exact N. }
  destruct KP as (R' & EN' & V' & EV & NB'). intros w J. rewrite <- EV in J. apply in_map_iff in J. destruct J as ([w' k] & <- & J). cbn [fst].
  exists k. destruct (nb_symbol _ _ _ NB' _ _ J) as (Mk & _). split; [exact Mk|]. intros l. split.
  - intros Rd. destruct (nb_only _ _ _ NB' _ _ _ J Rd) as (v & Jv & Jl). exists v. split; [exact Jv|]. exact (proj1 (nb_symbol _ _ _ NB' _ _ Jl)).
  - intros (v & Jv & Ml). destruct (nb_book _ _ _ NB' _ _ Jv) as (k' & l' & Jk' & Jl' & Rd).
    destruct (nb_symbol _ _ _ NB' _ _ Jk') as ((_ & _ & Fk & _) & _). destruct (nb_symbol _ _ _ NB' _ _ Jl') as ((_ & _ & Fl & _) & _).
    destruct Mk as (_ & _ & _ & Uk). destruct Ml as (_ & _ & _ & Ul). rewrite (Uk _ Fk), (Ul _ Fl) in Rd. exact Rd.
Qed.
Print Assumptions C63_notes_are_kept.

(** The answers are determined by what was declared, if no expressions but sequences are evaluated. *)
Lemma all_lead_once B ws vs : single B -> Forall2 (leads_to B) ws vs -> forall vs', Forall2 (leads_to B) ws vs' -> vs = vs'.
Proof.
  intros S A. induction A as [|w v ws vs L _ IH]; intros vs' A'; inversion A'; subst; [reflexivity|].
  f_equal; [eapply leads_to_one; eassumption|apply IH; assumption].
Qed.
Lemma objection_once B w v a b : single B -> objection B w v a -> objection B w v b -> a = b.
Proof.
  intros S A B'. inversion A as [w1 v1 u J N|w1 v1 U L N|w1 U]; subst; inversion B' as [w2 v2 u' J' N'|w2 v2 U' L' N'|w2 U']; subst; try congruence.
  - rewrite (S _ _ _ J J'). reflexivity.
  - destruct (U' _ J).
  - destruct (U _ J').
Qed.
Theorem C63_answers_are_determined s W B notes answers others :
  single B -> written s W B notes -> tidy notes = true -> replies true B notes answers -> replies true B notes others -> answers = others.
Proof.
  intros S H T. revert S answers others. induction H as [W B|W B w v ns _ _ N _ IH|W B w ns _ _ IH|W B w ns _ _ IH|W B w v z ns _ _ _ _ _ _ IH|W B ws ns _ _ _ IH|W B p ns _ _ _ IH|W B w v z ns _ _ _ _ _ _ _ _ IH|W B ws ns _ _ _ IH|W B pl w v z z' ns _ _ _ _ _ _ _ _ _ IH|W B os ns _ _ _ IH|W B w v b ns _ _ _ _ _ IH|W B w ns _ _ _ IH|W B w v ns _ _ _ N _ _ IH|W B sh w u ns _ _ _ _ IH|W B w ns _ _ IH];
    intros S answers others H1 H2; [| | | | | |discriminate T| | | |discriminate T| | | | |]; inversion H1; inversion H2; subst; [reflexivity| | | | | | | | | | | | |]; f_equal.
  - apply (IH T); [|assumption|assumption]. intros a b d [E1|J1] [E2|J2]; [congruence| | |exact (S _ _ _ J1 J2)].
    + injection E1 as -> ->. destruct (N _ J2).
    + injection E2 as -> ->. destruct (N _ J1).
  - apply (IH T); [|assumption|assumption]. intros a b d J1 J2. apply without_spec in J1, J2. exact (S _ _ _ (proj1 J1) (proj1 J2)).
  - eapply leads_to_one; eassumption.
  - apply (IH T); assumption.
  - match goal with A : away _ ?m w _, A' : away _ ?m' w _, C : away _ ?n v _, C' : away _ ?n' v _ |- context [Nat.ltb ?n ?m] =>
      destruct (away_one _ _ _ _ _ _ S A A') as [-> _]; destruct (away_one _ _ _ _ _ _ S C C') as [-> _] end. reflexivity.
  - apply (IH T); assumption.
  - f_equal. eapply all_lead_once; eassumption.
  - apply (IH T); assumption.
  - match goal with A : away _ ?m w _, A' : away _ ?m' w _, C : away _ ?n v _, C' : away _ ?n' v _ |- context [Nat.ltb ?n ?m] =>
      destruct (away_one _ _ _ _ _ _ S A A') as [-> _]; destruct (away_one _ _ _ _ _ _ S C C') as [-> _] end. reflexivity.
  - apply (IH T); assumption.
  - f_equal. eapply all_lead_once; eassumption.
  - apply (IH T); assumption.
  - match goal with A : leads_to _ w ?x, A' : leads_to _ w ?y, C : leads_to _ v ?x', C' : leads_to _ v ?y' |- joined [?x; _; ?x'] = joined [?y; _; ?y'] =>
      rewrite (leads_to_one _ _ _ _ S A A'), (leads_to_one _ _ _ _ S C C') end. reflexivity.
  - apply (IH T); assumption.
  - eapply objection_once; eassumption.
  - apply (IH T); assumption.
  - apply (IH T); assumption.
  - apply (IH T); [|assumption|assumption]. intros a b d [E1|J1] [E2|J2]; [congruence| | |exact (S _ _ _ J1 J2)].
    + injection E1 as -> ->. destruct (N _ J2).
    + injection E2 as -> ->. destruct (N _ J1).
  - apply (IH T); [|assumption|assumption]. intros a b d J1 J2. apply without_spec in J1, J2. exact (S _ _ _ (proj1 J1) (proj1 J2)).
  - apply (IH T); assumption.
Qed.
Print Assumptions C63_answers_are_determined.

(** ** The hypotheses are met *)
(** Deciding them.  A concept may go by a name that is written like a variable, if nothing reduces to it and it
    is not the left half of anything. *)
Definition named_b (s : snapshot) (n : nat) : bool :=
  existsb (fun p =>
    match composition_of s p with
    | Some (l, r) =>
      Nat.eqb r n && match built_in_of s l with Some CLabel => true | _ => false end &&
      match reduction_of s p with
      | Some str => match text_of s str with Some t => is_variable_text t | None => true end
      | None => false
      end
    | None => false
    end) (ids s).
Definition variables_named_b (s : snapshot) : bool :=
  forallb (fun p =>
    match composition_of s p with Some (l, _) => negb (named_b s l) | None => true end &&
    match reduction_of s p with Some m => negb (named_b s m) | None => true end &&
    match built_in_of s p with Some _ => negb (named_b s p) | None => true end) (ids s).
Lemma variables_named_ok s : variables_named_b s = true -> forall n t, goes_by s n t -> is_variable_text t = true -> named_b s n = true.
Proof.
  intros H n t G V. unfold variables_named_b in H. rewrite forallb_forall in H.
  induction G as [n t (lab & comp & str & BL & C & RR & T)|n m t _ Rd _ IH].
  - assert (I : In comp (ids s)) by (destruct C as (c & fv & bv & red & L & _); exact (known_id _ _ _ L)).
    apply existsb_exists. exists comp. split; [exact I|]. apply composition_of_composed in C. rewrite C, Nat.eqb_refl.
    destruct BL as (cl & Ll & Sl). unfold built_in_of. rewrite Ll, Sl. cbn [andb].
    assert (E : exists y, reduces s comp y /\ (y = str \/ exists z, reduces s y z)).
    { apply clos_trans_t1n in RR. destruct RR as [y R|y z R RR]; [exists y; auto|]. exists y. split; [exact R|]. right. destruct RR; eauto. }
    destruct E as (y & R & Y). apply reduction_of_reduces in R. rewrite R. unfold text_of. destruct Y as [->|(z & cz & kz & Lz & Sz)].
    + destruct T as (ct & Lt & St). rewrite Lt, St. exact V.
    + rewrite Lz, Sz. reflexivity.
  - specialize (IH V). assert (I : In n (ids s)) by (destruct Rd as (c & k & L & _); exact (known_id _ _ _ L)).
    specialize (H n I). apply andb_prop in H. destruct H as [H _]. apply andb_prop in H. destruct H as [_ H]. apply reduction_of_reduces in Rd. rewrite Rd, IH in H. discriminate.
Qed.
Lemma may_be_said s hs n : variables_named_b s = true -> may_say s hs n -> may_say_b s hs n = true.
Proof.
  intros U. induction 1 as [n|hs n (c & red & L & S)|h hs n a b b' C A B M IH]; [reflexivity| |].
  - destruct hs; [reflexivity|]. cbn [may_say_b]. unfold free_b. rewrite L, S. reflexivity.
  - cbn [may_say_b]. assert (I : In n (ids s)) by (destruct C as (c & fv & bv & red & L & _); exact (known_id _ _ _ L)).
    apply composition_of_composed in C. rewrite C.
    assert ((Nat.eqb a h || indefinite_b s a)%bool = true) as ->.
    { destruct A as [->|A]; [rewrite Nat.eqb_refl; reflexivity|]. replace (indefinite_b s a) with true; [apply orb_true_r|]. symmetry.
      destruct A as [(k & red & L & S)|[(k & red & L & S)|[(k & l & r & v & fv & bv & red & L & S)|(w & G & V)]]];
        try (unfold indefinite_b; rewrite L, S; reflexivity).
      exfalso. pose proof (variables_named_ok _ U _ _ G V) as X. unfold variables_named_b in U. rewrite forallb_forall in U. specialize (U n I).
      rewrite C, X in U. discriminate. }
    replace (existsb (may_say_b s hs) (b :: listed_b s b)) with true; [apply orb_true_r|]. symmetry.
    apply existsb_exists. exists b'. split; [apply reducing_ok, B|exact IH].
Qed.
Lemma unruled_known s k : variables_named_b s = true -> unruled_b s k = true -> unruled s k.
Proof.
  intros U H t i r z cond w w' Bt Bi Br Z C W M. unfold unruled_b in H.
  rewrite forallb_forall in H. specialize (H t (of_type_ok _ _ _ Bt)).
  rewrite forallb_forall in H. specialize (H z (reducing_ok _ _ _ Z)).
  apply composition_of_composed in C. rewrite C in H.
  rewrite forallb_forall in H. specialize (H w' (reducing_ok _ _ _ W)).
  rewrite forallb_forall in H. specialize (H i (of_type_ok _ _ _ Bi)).
  rewrite forallb_forall in H. specialize (H r (of_type_ok _ _ _ Br)).
  rewrite (may_be_said _ _ _ U M) in H. discriminate.
Qed.
(** What may not be said of any concept there is may not be said of one there is not. *)
Lemma unruled_beyond s k j : sane s -> le (size s) k -> unruled s j -> unruled s k.
Proof.
  intros S L H t i r z cond w w' Bt Bi Br Z C W M. apply (H t i r z cond w w' Bt Bi Br Z C W).
  inversion M as [|hs n K|h hs n a b b' Cn A Bn M']; subst; [apply SaysVariable, K|]. apply (SaysPair s i [j; r] w' a b b' Cn A Bn).
  inversion M' as [|hs n K|h hs n a' d d' Cb A' Bb M'']; subst; [apply SaysVariable, K|]. apply (SaysPair s j [r] b' a' d d' Cb); [|exact Bb|exact M''].
  destruct A' as [->|A']; [|right; exact A']. apply composed_at in Cb. destruct (comp_parts_lt s _ _ _ S Cb). lia.
Qed.
Definition entry_b (s : snapshot) (e : text * nat * list nat) : bool :=
  let '(w, k, l) := e in
  means_b s w k l && carries s k w && (constant_b s k && match listed_b s k with [] => true | _ => false end || built_b s k) &&
  forallb (fun p => match composition_of s p with
                    | Some (op, r) => negb (Nat.eqb r k) || match built_in_of s op with Some CReduction | Some CImplication => false | _ => true end
                    | None => true end) (ids s) &&
  match reduction_of s k with Some _ => false | None => true end && unlisted_b s k.
Definition names_of (es : list (text * nat * list nat)) : list (text * nat) := map fst es.
Definition notebook_b (s : snapshot) (es : list (text * nat * list nat)) (nl na nf : nat) : bool :=
  variables_named_b s && forallb (unruled_b s) (ids s) && (0 <? size s)%nat &&
  existsb (fun e => text_eqb (fst e) (txt "let") && Nat.eqb (snd e) nl) (names_of es) &&
  existsb (fun e => text_eqb (fst e) (txt "->") && Nat.eqb (snd e) na) (names_of es) &&
  match built_in_of s nl with Some CLet => true | _ => false end && match built_in_of s na with Some CReduction => true | _ => false end &&
  forallb (entry_b s) es &&
  (existsb (fun e => text_eqb (fst e) (txt "forget") && Nat.eqb (snd e) nf) (names_of es) && match built_in_of s nf with Some CForget => true | _ => false end &&
   forallb (fun p => match composition_of s p with Some (l, _) => negb (Nat.eqb l nf) | None => true end) (ids s)).
Lemma entry_ok s e : entry_b s e = true -> let '(w, k, _) := e in symbol s w k /\ (forall q, ~ reduces s k q) /\
  (forall q, ~ lists_reduction_from s q k) /\ (leaf_variable s k Constant -> forall p, ~ lists_reduction_from s k p).
Proof.
  destruct e as [[w k] l]. unfold entry_b. intros H. do 5 (apply andb_prop in H; destruct H as [H ?]).
  match goal with H1 : carries _ _ _ = true, H2 : (_ || _)%bool = true, H3 : forallb _ _ = true, H4 : match reduction_of _ _ with _ => _ end = true, H5 : unlisted_b _ _ = true |- _ =>
    rename H1 into CA; rename H2 into K; rename H3 into NC; rename H4 into NR; rename H5 into NL end.
  split; [|split; [|split]].
  - split; [exact (means_ok _ _ _ _ H)|]. split; [apply carries_label_of, CA|]. split.
    + apply orb_prop in K. destruct K as [K|K]; [left; apply andb_prop in K; apply constant_ok, K|right; apply built_ok, K].
    + intros op p Bo C. rewrite forallb_forall in NC. assert (I : In p (ids s)) by (destruct C as (c & fv & bv & red & L & _); exact (known_id _ _ _ L)).
      apply NC in I. apply composition_of_composed in C. rewrite C, Nat.eqb_refl in I. unfold built_in_of in I.
      destruct Bo as [(c & L & S)|(c & L & S)]; rewrite L, S in I; discriminate.
  - intros q Rd. apply reduction_of_reduces in Rd. rewrite Rd in NR. discriminate.
  - exact (unlisted_ok _ _ NL).
  - intros (c & red & L & S) p J. apply listed_ok in J. apply orb_prop in K. destruct K as [K|K].
    + apply andb_prop in K. destruct K as [_ K]. destruct (listed_b s k); [destruct J|discriminate].
    + unfold built_b, built_in_of in K. rewrite L, S in K. discriminate.
Qed.
Lemma named_entry es w n : existsb (fun e => text_eqb (fst e) w && Nat.eqb (snd e) n) (names_of es) = true -> In (w, n) (names_of es).
Proof.
  intros H. apply existsb_exists in H. destruct H as ([u m] & J & H). apply andb_prop in H. destruct H as [H1 H2]. cbn in H1, H2.
  destruct (text_eqb_spec u w) as [->|]; [|discriminate]. apply Nat.eqb_eq in H2. subst m. exact J.
Qed.
Lemma notebook_ok s es nl na nf : sane s -> notebook_b s es nl na nf = true -> notebook s (names_of es) [].
Proof.
  intros SA H. unfold notebook_b in H. apply andb_prop in H. destruct H as [H HF]. do 7 (apply andb_prop in H; destruct H as [H ?]).
  match goal with H1 : forallb (unruled_b s) _ = true, H2 : (_ <? _)%nat = true, H3 : existsb _ _ = true, H4 : existsb _ _ = true,
    H5 : match built_in_of s nl with _ => _ end = true, H6 : match built_in_of s na with _ => _ end = true, H7 : forallb (entry_b s) _ = true |- _ =>
    rename H1 into UR; rename H2 into SZ; rename H3 into J2; rename H4 into J1; rename H5 into B1; rename H6 into B2; rename H7 into ES end.
  apply Nat.ltb_lt in SZ. rewrite forallb_forall in UR, ES.
  assert (EN : forall w k, In (w, k) (names_of es) -> exists l, In (w, k, l) es).
  { intros w k J. apply in_map_iff in J. destruct J as ([[w' k'] l] & [= -> ->] & J). exists l. exact J. }
  assert (UN : forall k, lt k (size s) -> unruled s k).
  { intros k L. apply unruled_known; [exact H|]. apply UR, in_seq. cbn. lia. }
  assert (BI : forall n cc, match built_in_of s n with Some x => Some x = Some cc | None => False end -> built_in s n cc).
  { intros n cc X. unfold built_in_of in X. destruct (lookup s n) as [c|] eqn:L; [|destruct X]. destruct (c_spec c) as [x| |] eqn:S; [injection X as ->; exists c; auto|destruct X|destruct X]. }
  split.
  - intros k. destruct (Nat.lt_ge_cases k (size s)) as [L|L]; [exact (UN k L)|exact (unruled_beyond s k 0 SA L (UN 0 SZ))].
  - intros n w B G. destruct (is_variable_text w) eqn:V; [|reflexivity]. pose proof (variables_named_ok _ H _ _ G V) as X.
    unfold variables_named_b in H. rewrite forallb_forall in H.
    assert (Y : exists c cc, lookup s n = Some c /\ c_spec c = Concrete cc) by (destruct B as [(c & L & S)|(c & L & S)]; eauto).
    destruct Y as (c & cc & L & S). specialize (H n (known_id _ _ _ L)). apply andb_prop in H. destruct H as [_ H]. unfold built_in_of in H. rewrite L, S, X in H. discriminate.
  - exists nl. split; [eapply named_entry; eassumption|]. apply BI. destruct (built_in_of s nl) as [[]|]; congruence.
  - exists na. split; [eapply named_entry; eassumption|]. apply BI. destruct (built_in_of s na) as [[]|]; congruence.
  - apply andb_prop in HF. destruct HF as [HF NC]. apply andb_prop in HF. destruct HF as [J3 B3]. exists nf. split; [eapply named_entry; eassumption|]. split.
    + apply BI. destruct (built_in_of s nf) as [[]|]; congruence.
    + intros p r C. rewrite forallb_forall in NC. assert (I : In p (ids s)) by (destruct C as (c & fv & bv & red & L & _); exact (known_id _ _ _ L)).
      apply NC in I. apply composition_of_composed in C. rewrite C, Nat.eqb_refl in I. discriminate.
  - intros w k J. destruct (EN _ _ J) as (l & Jl). apply (entry_ok _ _ (ES _ Jl)).
  - intros w v [].
  - intros w k q J Rd. destruct (EN _ _ J) as (l & Jl). destruct (entry_ok _ _ (ES _ Jl)) as (_ & N & _). destruct (N _ Rd).
  - intros w k q J Rd. destruct (EN _ _ J) as (l & Jl). destruct (entry_ok _ _ (ES _ Jl)) as (_ & _ & N & _). destruct (N _ Rd).
  - intros w q p J K Rd. destruct (EN _ _ J) as (l & Jl). destruct (entry_ok _ _ (ES _ Jl)) as (_ & _ & _ & N). destruct (N K _ Rd).
Qed.
Definition inquiry_b (s : snapshot) (V : list (text * nat)) : bool :=
  forallb (fun q => existsb (fun e => text_eqb (fst e) (fst q) && match built_in_of s (snd e) with Some cc => cct_eqb cc (snd q) | None => false end) V)
    [(txt "assoc", CAssociativity); (txt "true", CTrue); (txt "false", CFalse); (txt "label_of", CLabel)] &&
  forallb (fun p => match composition_of s p with
                    | Some (a, b) =>
                      match built_in_of s a with Some CAssociativity => false | _ => true end &&
                      (negb (match built_in_of s a with Some CReduction => true | _ => false end || existsb (fun e => Nat.eqb (snd e) b) V) ||
                       match lookup s p with Some c => match c_spec c with Abstract (Comp _ _ (_ :: _) _) _ => false | _ => true end | None => true end ||
                       (constant_b s a || built_b s a) && (constant_b s b || built_b s b))
                    | None => true end) (ids s).
Lemma inquiry_ok s V : inquiry_b s V = true -> inquiry s V.
Proof.
  intros H. unfold inquiry_b in H. apply andb_prop in H. destruct H as [H1 H2]. rewrite forallb_forall in H1, H2.
  assert (I : forall p a b, composed s p a b -> In p (ids s)) by (intros p a b (c & fv & bv & red & L & _); exact (known_id _ _ _ L)).
  split.
  - intros w cc J. specialize (H1 _ J). apply existsb_exists in H1. destruct H1 as ([u n] & Jn & H). cbn [fst snd] in H. apply andb_prop in H. destruct H as [E H].
    destruct (text_eqb_spec u w) as [->|]; [|discriminate]. exists n. split; [exact Jn|]. unfold built_in_of in H. destruct (lookup s n) as [c|] eqn:L; [|discriminate].
    destruct (c_spec c) as [x| |] eqn:S; try discriminate. destruct (cct_eqb_spec x cc) as [->|]; [|discriminate]. exists c. auto.
  - intros a p r (c & L & S) C. specialize (H2 _ (I _ _ _ C)). apply composition_of_composed in C. rewrite C in H2. apply andb_prop in H2. destruct H2 as [H2 _].
    unfold built_in_of in H2. rewrite L, S in H2. discriminate.
  - intros p a b C O (c & l & r & v & fv & bv & red & L & S). specialize (H2 _ (I _ _ _ C)). apply composition_of_composed in C. rewrite C in H2.
    apply andb_prop in H2. destruct H2 as [_ H2]. rewrite L, S in H2. rewrite orb_false_r in H2.
    assert (X : (match built_in_of s a with Some CReduction => true | _ => false end || existsb (fun e => Nat.eqb (snd e) b) V)%bool = true).
    { destruct O as [(ca & La & Sa)|(w & J)].
      - unfold built_in_of. rewrite La, Sa. reflexivity.
      - apply orb_true_intro. right. apply existsb_exists. exists (w, b). split; [exact J|]. apply Nat.eqb_refl. }
    rewrite X in H2. cbn [negb orb] in H2. apply andb_prop in H2. destruct H2 as [Ea Eb].
    assert (EL : forall k, (constant_b s k || built_b s k)%bool = true -> elementary s k).
    { intros k K. apply orb_prop in K. destruct K as [K|K]; [right; apply constant_ok, K|left; apply built_ok, K]. }
    split; apply EL; assumption.
Qed.
Definition said_b (V : list (text * nat)) (k : nat) : bool := existsb (fun e => Nat.eqb (snd e) k && negb (existsb (text_eqb (fst e)) reserved)) V.
Definition phrasing_b (s : snapshot) (V : list (text * nat)) : bool :=
  existsb (fun e => text_eqb (fst e) (txt "assoc") && match built_in_of s (snd e) with Some CAssociativity => true | _ => false end) V &&
  forallb (fun e => match built_in_of s (snd e) with Some CAssociativity | None => true | Some _ => existsb (text_eqb (fst e)) reserved end) V &&
  forallb (fun p => match composition_of s p with
                    | Some (a, b) =>
                      negb (said_b V a && said_b V b) &&
                      (negb (said_b V a || said_b V b) ||
                       match lookup s p with Some c => match c_spec c with Abstract (Comp _ _ (_ :: _) _) _ => false | _ => true end | None => true end &&
                       forallb (fun q => match composition_of s q with Some (c, d) => negb (Nat.eqb c p || Nat.eqb d p) | None => true end) (ids s))
                    | None => true end) (ids s).
Lemma phrasing_ok s V : phrasing_b s V = true -> phrasing s V.
Proof.
  intros H. unfold phrasing_b in H. apply andb_prop in H. destruct H as [H H3]. apply andb_prop in H. destruct H as [H1 H2]. rewrite forallb_forall in H2, H3.
  assert (I : forall p a b, composed s p a b -> In p (ids s)) by (intros p a b (c & fv & bv & red & L & _); exact (known_id _ _ _ L)).
  assert (R : forall w, existsb (text_eqb w) reserved = true -> In w reserved).
  { intros w X. apply existsb_exists in X. destruct X as (u & Ju & X). destruct (text_eqb_spec w u) as [->|]; [exact Ju|discriminate]. }
  assert (SB : forall w k, In (w, k) V -> ~ In w reserved -> said_b V k = true).
  { intros w k J K. apply existsb_exists. exists (w, k). split; [exact J|]. cbn [fst snd]. rewrite Nat.eqb_refl.
    destruct (existsb (text_eqb w) reserved) eqn:E; [destruct (K (R _ E))|reflexivity]. }
  assert (LO : forall w k p x y, In (w, k) V -> ~ In w reserved -> composed s p x y -> k = x \/ k = y ->
    ~ pattern s p /\ forall q c d, composed s q c d -> c <> p /\ d <> p).
  { intros w k p x y J K C O. pose proof (SB _ _ J K) as S. specialize (H3 _ (I _ _ _ C)). apply composition_of_composed in C. rewrite C in H3.
    apply andb_prop in H3. destruct H3 as [_ H3].
    assert (X : (said_b V x || said_b V y)%bool = true) by (destruct O as [<-|<-]; rewrite S; [reflexivity|apply orb_true_r]).
    rewrite X in H3. cbn [negb orb] in H3. apply andb_prop in H3. destruct H3 as [H3 H4]. split.
    - intros (c & l & r & v & fv & bv & red & L & Sp). rewrite L, Sp in H3. discriminate.
    - intros q c d Cq. rewrite forallb_forall in H4. specialize (H4 _ (I _ _ _ Cq)). apply composition_of_composed in Cq. rewrite Cq in H4.
      destruct (Nat.eqb_spec c p); [discriminate|]. destruct (Nat.eqb_spec d p); [discriminate|]. auto. }
  assert (TOP : forall w k p, In (w, k) V -> ~ In w reserved -> mentions s p k -> exists x y, composed s p x y /\ (k = x \/ k = y)).
  { intros w k p J K M. induction M as [p x y C|p x y C|p x y k C M IH|p x y k C M IH]; [eauto|eauto| |];
      destruct (IH J) as (a & b & C' & O); destruct (LO _ _ _ _ _ J K C' O) as [_ N]; destruct (N _ _ _ C); congruence. }
  split.
  - apply existsb_exists in H1. destruct H1 as ([w n] & J & H). cbn [fst snd] in H. apply andb_prop in H. destruct H as [E H].
    destruct (text_eqb_spec w (txt "assoc")) as [->|]; [|discriminate]. exists n. split; [exact J|]. unfold built_in_of in H. destruct (lookup s n) as [c|] eqn:L; [|discriminate].
    destruct (c_spec c) as [[]| |] eqn:S; try discriminate. exists c. auto.
  - intros w k cc J (c & L & S). specialize (H2 _ J). cbn [fst snd] in H2. unfold built_in_of in H2. rewrite L, S in H2.
    destruct cc; auto.
  - intros w k p J K M. destruct (TOP _ _ _ J K M) as (x & y & C & O). exact (proj1 (LO _ _ _ _ _ J K C O)).
  - intros w k v l p J1 J2 K1 K2 C. specialize (H3 _ (I _ _ _ C)). apply composition_of_composed in C. rewrite C in H3.
    rewrite (SB _ _ J1 K1), (SB _ _ J2 K2) in H3. discriminate.
Qed.
Definition ranked_b (s : snapshot) (k : nat) : bool :=
  existsb (fun m => match composition_of s m with
                    | Some (p, y) =>
                      match built_in_of s p with Some CPrecedes => true | _ => false end &&
                      (Nat.eqb k y || existsb (fun q => match composition_of s q with Some (a, b) => Nat.eqb a k && Nat.eqb b m | None => false end) (ids s))
                    | None => false end) (ids s).
Lemma ranked_ok s k : ranked_b s k = true <-> ranked s k.
Proof.
  assert (I : forall p a b, composed s p a b -> In p (ids s)) by (intros p a b (c & fv & bv & red & L & _); exact (known_id _ _ _ L)).
  unfold ranked_b. rewrite existsb_exists. split.
  - intros (m & _ & H). destruct (composition_of s m) as [[p y]|] eqn:C; [|discriminate]. apply andb_prop in H. destruct H as [H O].
    exists p, m, y. split; [|split].
    + unfold built_in_of in H. destruct (lookup s p) as [c|] eqn:L; [|discriminate]. destruct (c_spec c) as [[]| |] eqn:S; try discriminate. exists c. auto.
    + apply composition_of_composed, C.
    + apply orb_prop in O. destruct O as [O|O]; [left; apply Nat.eqb_eq, O|right]. apply existsb_exists in O. destruct O as (q & _ & O). exists q.
      destruct (composition_of s q) as [[a b]|] eqn:Q; [|discriminate]. apply andb_prop in O. destruct O as [Oa Ob]. apply Nat.eqb_eq in Oa, Ob. subst.
      apply composition_of_composed, Q.
  - intros (p & m & y & (c & L & S) & C & O). exists m. split; [exact (I _ _ _ C)|]. apply composition_of_composed in C. rewrite C. unfold built_in_of. rewrite L, S.
    cbn [andb]. destruct O as [->|(q & Q)]; [rewrite Nat.eqb_refl; reflexivity|]. apply orb_true_intro. right. apply existsb_exists.
    exists q. split; [exact (I _ _ _ Q)|]. apply composition_of_composed in Q. rewrite Q, !Nat.eqb_refl. reflexivity.
Qed.
Definition unbracketed_b (s : snapshot) (V : list (text * nat)) : bool :=
  forallb (fun k => match built_in_of s k with Some CReduction => ranked_b s k | _ => true end) (ids s) &&
  forallb (fun e => existsb (text_eqb (fst e)) reserved || negb (ranked_b s (snd e))) V.
Lemma unbracketed_ok s V : unbracketed_b s V = true -> unbracketed s V.
Proof.
  intros H. unfold unbracketed_b in H. apply andb_prop in H. destruct H as [H1 H2]. rewrite forallb_forall in H1, H2. split.
  - intros k (c & L & S). specialize (H1 _ (known_id _ _ _ L)). unfold built_in_of in H1. rewrite L, S in H1. apply ranked_ok, H1.
  - intros w k J N K. specialize (H2 _ J). cbn [fst snd] in H2. apply ranked_ok in K. rewrite K in H2. rewrite orb_false_r in H2.
    apply existsb_exists in H2. destruct H2 as (u & Ju & X). destruct (text_eqb_spec w u) as [->|]; [exact (N Ju)|discriminate].
Qed.
(** The compositions that mention one of the identifiers. *)
Fixpoint touched (s : snapshot) (off : nat -> bool) (n : nat) : list nat :=
  match n with
  | O => []
  | S n => let t := touched s off n in
    filter (fun p => match composition_of s p with Some (a, b) => off a || off b || existsb (Nat.eqb a) t || existsb (Nat.eqb b) t | None => false end) (ids s)
  end.
Definition involved_b (s : snapshot) (V : list (text * nat)) (k : nat) : bool :=
  said_b V k || match built_in_of s k with Some CReduction => true | _ => false end.
Definition uninvolved_b (s : snapshot) (V : list (text * nat)) (n : nat) : bool :=
  let t := touched s (involved_b s V) n in
  forallb (fun p => match composition_of s p with
                    | Some (a, b) => negb (involved_b s V a || involved_b s V b || existsb (Nat.eqb a) t || existsb (Nat.eqb b) t) || existsb (Nat.eqb p) t
                    | None => true end) (ids s) &&
  forallb (fun p => match lookup s p with Some c => match c_spec c with Abstract (Comp _ _ (_ :: _) _) _ => false | _ => true end | None => true end) t.
Lemma uninvolved_ok s V n : uninvolved_b s V n = true -> uninvolved s V.
Proof.
  unfold uninvolved_b. cbv zeta. generalize (touched s (involved_b s V) n). intros t H. apply andb_prop in H. destruct H as [H1 H2]. rewrite forallb_forall in H1, H2.
  assert (I : forall p a b, composed s p a b -> In p (ids s)) by (intros p a b (c & fv & bv & red & L & _); exact (known_id _ _ _ L)).
  assert (T : forall p, existsb (Nat.eqb p) t = true <-> In p t).
  { intros p. rewrite existsb_exists. split; [intros (x & J & X); apply Nat.eqb_eq in X; subst; exact J|intros J; exists p; split; [exact J|apply Nat.eqb_refl]]. }
  assert (R : forall w, existsb (text_eqb w) reserved = true -> In w reserved).
  { intros w X. apply existsb_exists in X. destruct X as (u & Ju & X). destruct (text_eqb_spec w u) as [->|]; [exact Ju|discriminate]. }
  assert (ST : forall p a b, composed s p a b -> involved_b s V a = true \/ involved_b s V b = true \/ In a t \/ In b t -> In p t).
  { intros p a b C O. specialize (H1 _ (I _ _ _ C)). apply composition_of_composed in C. rewrite C in H1. apply T.
    assert (X : (involved_b s V a || involved_b s V b || existsb (Nat.eqb a) t || existsb (Nat.eqb b) t)%bool = true).
    { rewrite !orb_true_iff, !T. tauto. }
    rewrite X in H1. exact H1. }
  intros w k p J O M.
  assert (K : involved_b s V k = true).
  { unfold involved_b. destruct O as [O|(c & L & S)].
    - apply orb_true_intro. left. apply existsb_exists. exists (w, k). split; [exact J|]. cbn [fst snd]. rewrite Nat.eqb_refl.
      destruct (existsb (text_eqb w) reserved) eqn:E; [destruct (O (R _ E))|reflexivity].
    - unfold built_in_of. rewrite L, S. apply orb_true_r. }
  assert (P : In p t).
  { clear J O. induction M as [p x y C|p x y C|p x y k C M IH|p x y k C M IH]; apply (ST _ _ _ C); auto. }
  intros (c & l & r & v & fv & bv & red & L & S). specialize (H2 _ P). rewrite L, S in H2. discriminate.
Qed.
Lemma ending_empty W : ending W [].
Proof. intros w _. exists w. apply LeadsHere. intros v []. Qed.

(** ** A new interpreter *)
(** [Context::new] is a history of changes that keep the links. *)
Lemma context0_safely : match run_safely cfg0 fuel0 (map txt setup_commands) base_context with Some c => c = context0 | None => False end.
Proof. vm_compute. reflexivity. Qed.
Lemma context0_linked : reachable_with true (links_safe true) context0.
Proof.
  pose proof context0_safely as H. destruct (run_safely cfg0 fuel0 (map txt setup_commands) base_context) as [c|] eqn:E; [|destruct H].
  rewrite <- H. exact (run_safely_reachable cfg0 fuel0 _ fair0 _ c (reach_with_base _ _) E).
Qed.
Definition built_in_words : list (text * nat * list nat) :=
  map (fun '(w, k) => (txt w, k, [k - 1])%nat)
    [("label_of", 2); (":=", 5); ("->", 8); ("let", 11); ("true", 14); ("false", 17); ("assoc", 20); ("right", 23); ("left", 26); (">", 29);
     ("=>", 32); ("exists_such_that", 35); ("precedes", 38); ("forget", 41); ("and", 44)]%nat.
Lemma context0_checked : notebook_b (c_snap context0) built_in_words 11 8 41 = true.
Proof. vm_compute. reflexivity. Qed.
Lemma context0_notebook : notebook (c_snap context0) (names_of built_in_words) [].
Proof. exact (notebook_ok _ _ _ _ _ (ready_sane _ (reachable_ready _ _ context0_reachable)) context0_checked). Qed.
Lemma context0_inquiry_checked : inquiry_b (c_snap context0) (names_of built_in_words) = true.
Proof. vm_compute. reflexivity. Qed.
Lemma context0_inquiry : inquiry (c_snap context0) (names_of built_in_words).
Proof. exact (inquiry_ok _ _ context0_inquiry_checked). Qed.
Lemma context0_phrasing_checked : phrasing_b (c_snap context0) (names_of built_in_words) = true.
Proof. vm_compute. reflexivity. Qed.
Lemma context0_phrasing : phrasing (c_snap context0) (names_of built_in_words).
Proof. exact (phrasing_ok _ _ context0_phrasing_checked). Qed.
Lemma context0_unbracketed_checked : unbracketed_b (c_snap context0) (names_of built_in_words) = true.
Proof. vm_compute. reflexivity. Qed.
Lemma context0_unbracketed : unbracketed (c_snap context0) (names_of built_in_words).
Proof. exact (unbracketed_ok _ _ context0_unbracketed_checked). Qed.
Lemma context0_uninvolved_checked : uninvolved_b (c_snap context0) (names_of built_in_words) 5 = true.
Proof. vm_compute. reflexivity. Qed.
Lemma context0_uninvolved : uninvolved (c_snap context0) (names_of built_in_words).
Proof. exact (uninvolved_ok _ _ _ context0_uninvolved_checked). Qed.
(** A new interpreter is an empty notebook that knows the words of the language and [and]. *)
Theorem C63_new_interpreters_take_notes cfg fuel notes answers c' :
  fair cfg -> dbg cfg = true -> written (c_snap context0) (map fst (names_of built_in_words)) [] notes ->
  run_session cfg fuel (map line notes) context0 = Ok (answers, c') -> Forall2 silent notes answers -> replies (tidy notes) [] notes answers.
Proof.
  intros F D W. exact (C63_notes_are_answered cfg fuel context0 _ [] notes answers c' F D context0_linked eq_refl context0_notebook (fun _ => context0_inquiry) (fun _ => context0_phrasing)
    (fun _ => context0_unbracketed) (fun _ => context0_uninvolved) (ending_empty _) W).
Qed.
Print Assumptions C63_new_interpreters_take_notes.
(** The same for release builds, for sessions in which the debug build does not stop at an assertion. *)
Theorem C63_release_builds_take_notes order fuel notes answers c' :
  fair (debug order) -> written (c_snap context0) (map fst (names_of built_in_words)) [] notes ->
  (forall site, debug_only site -> run_session (debug order) fuel (map line notes) context0 <> Panic site) ->
  run_session (release order) fuel (map line notes) context0 = Ok (answers, c') -> Forall2 silent notes answers -> replies (tidy notes) [] notes answers.
Proof.
  intros F W P E. destruct (run_session_like order fuel (map line notes) context0) as [(site & H & X)|H]; [destruct (P site H X)|].
  rewrite <- H in E. exact (C63_new_interpreters_take_notes (debug order) fuel notes answers c' F eq_refl W E).
Qed.
Print Assumptions C63_release_builds_take_notes.

(** A session with a new interpreter. *)
Definition sample_notes : list note :=
  [Tell (txt "tom") (txt "cat"); Tell (txt "cat") (txt "true"); Ask (txt "tom"); Forget (txt "tom"); Ask (txt "tom"); Tell (txt "tom") (txt "animal"); Ask (txt "tom")].
Definition sample_replies : list text := map txt [""; ""; "true"; ""; "tom"; ""; "animal"].
Lemma sample_lines : map line sample_notes =
  map txt ["let (tom (-> cat))"; "let (cat (-> true))"; "tom"; "forget tom"; "tom"; "let (tom (-> animal))"; "tom"].
Proof. reflexivity. Qed.
Lemma sample_words : plain_word_b (txt "tom") && plain_word_b (txt "cat") && plain_word_b (txt "animal") && plain_word_b (txt "true") &&
  unknown_b (c_snap context0) (txt "tom") && unknown_b (c_snap context0) (txt "cat") && unknown_b (c_snap context0) (txt "animal") = true.
Proof. vm_compute. reflexivity. Qed.
Lemma sample_written : written (c_snap context0) (map fst (names_of built_in_words)) [] sample_notes.
Proof.
  pose proof sample_words as H. revert H. generalize (c_snap context0). intros s H. do 6 (apply andb_prop in H; destruct H as [H ?]).
  assert (NEW : forall W w, plain_word_b w = true -> unknown_b s w = true -> usable s W w).
  { intros W w P U. destruct (plain_word_ok w P). split; [assumption|]. split; [assumption|]. right. exact (unknown_ok _ _ U). }
  assert (OLD : forall W w, plain_word_b w = true -> In w W -> usable s W w).
  { intros W w P U. destruct (plain_word_ok w P). split; [assumption|]. split; [assumption|]. left. exact U. }
  apply WrittenTell; [apply NEW; assumption|apply NEW; assumption|intros u []|].
  apply WrittenTell; [apply OLD; [assumption|right; left; reflexivity]|apply OLD; [assumption|cbn; tauto]|intros u [E|[]]; discriminate|].
  apply WrittenAsk; [right; right; left; reflexivity|].
  apply WrittenForget; [right; right; left; reflexivity|].
  apply WrittenAsk; [right; right; left; reflexivity|].
  apply WrittenTell; [apply OLD; [assumption|right; right; left; reflexivity]|apply NEW; assumption|intros u [E|[]]; discriminate|].
  apply WrittenAsk; [left; reflexivity|]. constructor.
Qed.
Lemma sample_answered : texts_b (run_session cfg0 fuel0 (map line sample_notes) context0) sample_replies = true.
Proof. vm_compute. reflexivity. Qed.
Example C63_example : exists c', fair cfg0 /\ reachable_with true (links_safe true) context0 /\ c_cache context0 = empty_cache /\
  notebook (c_snap context0) (names_of built_in_words) [] /\ inquiry (c_snap context0) (names_of built_in_words) /\
  phrasing (c_snap context0) (names_of built_in_words) /\ unbracketed (c_snap context0) (names_of built_in_words) /\
  uninvolved (c_snap context0) (names_of built_in_words) /\ ending (map fst (names_of built_in_words)) [] /\
  written (c_snap context0) (map fst (names_of built_in_words)) [] sample_notes /\
  run_session cfg0 fuel0 (map line sample_notes) context0 = Ok (sample_replies, c') /\ Forall2 silent sample_notes sample_replies.
Proof.
  destruct (texts_ok _ _ sample_answered) as (c' & E). exists c'. split; [exact fair0|]. split; [exact context0_linked|]. split; [reflexivity|].
  split; [exact context0_notebook|]. split; [exact context0_inquiry|]. split; [exact context0_phrasing|]. split; [exact context0_unbracketed|].
  split; [exact context0_uninvolved|].
  split; [exact (ending_empty _)|]. split; [exact sample_written|]. split; [exact E|]. repeat constructor.
Qed.
Lemma released cfg order fuel lines c answers c' : cfg = debug order -> run_session cfg fuel lines c = Ok (answers, c') ->
  (forall site, debug_only site -> run_session (debug order) fuel lines c <> Panic site) /\ run_session (release order) fuel lines c = Ok (answers, c').
Proof.
  intros -> E. split; [intros site _ X; rewrite X in E; discriminate|].
  destruct (run_session_like order fuel lines c) as [(site & _ & X)|X]; rewrite X in E; [discriminate|exact E].
Qed.
Example C63_release_example : exists c', fair (debug (ord cfg0)) /\ written (c_snap context0) (map fst (names_of built_in_words)) [] sample_notes /\
  (forall site, debug_only site -> run_session (debug (ord cfg0)) fuel0 (map line sample_notes) context0 <> Panic site) /\
  run_session (release (ord cfg0)) fuel0 (map line sample_notes) context0 = Ok (sample_replies, c') /\ Forall2 silent sample_notes sample_replies.
Proof.
  destruct (texts_ok _ _ sample_answered) as (c' & E). exists c'. split; [exact fair0|]. split; [exact sample_written|].
  destruct (released cfg0 (ord cfg0) _ _ _ _ _ eq_refl E) as [P E']. split; [exact P|]. split; [exact E'|]. repeat constructor.
Qed.
