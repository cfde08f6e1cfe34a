(** Telling the symbols of a command apart never crashes, and terminates when reductions make no
    cycle. *)
From Verif Require Import Start Snapshot Lexer Context LexerFacts StoreSpec MapFacts StoreFacts AstFacts RangeFacts History StoreInv
  Acyclic Names.
From Coq Require Import String List Bool NArith PeanoNat Relations Lia.
Import ListNotations.

(** The outcome is an answer, or more steps are needed. *)
Definition calm {A} (x : outcome A) : Prop := x = OutOfFuel \/ exists a, x = Ok a.
Lemma calm_bind {A B} (x : outcome A) (f : A -> outcome B) : calm x -> (forall a, x = Ok a -> calm (f a)) -> calm (obind x f).
Proof. intros [->|(a & ->)] H; [now left|]. apply H. reflexivity. Qed.
Lemma calm_ok {A} (a : A) : calm (Ok a). Proof. right. eauto. Qed.

(** ** Lexing *)
Lemma calm_lex_step kf ls stk c : (forall t, calm (kf t)) -> br_inv ls stk -> calm (lex_step kf (ls, stk) c).
Proof.
  intros K B. unfold lex_step. destruct (N.eqb c c_open); [apply calm_ok|]. destruct (N.eqb c c_close).
  - destruct stk as [|op stk]; [apply calm_ok|].
    assert (L : lt op (List.length ls)).
    { rewrite <- (kls_length ls). eapply openstk_in_lt; [apply B|]. now left. }
    apply Nat.ltb_lt in L. rewrite L. apply calm_ok.
  - destruct (is_whitespace c).
    + destruct (unsnoc ls) as [[i [t []]]|]; apply calm_ok.
    + destruct (unsnoc ls) as [[i [t []]]|]; apply calm_bind; auto; intros; apply calm_ok.
Qed.
Lemma calm_lex kf s : (forall t, calm (kf t)) -> calm (lex kf s).
Proof.
  intros K. unfold lex. apply calm_bind; [|intros; apply calm_ok].
  assert (B : br_inv [] []).
  { split; [repeat constructor|]. intros [|i] l; discriminate. }
  revert B. generalize (@nil lexeme), (@nil nat). induction s as [|c s IH]; intros ls stk B; cbn [lex_loop]; [apply calm_ok|].
  apply calm_bind; [apply calm_lex_step; assumption|]. intros [ls' stk'] E. apply IH. eapply lex_step_brackets; eassumption.
Qed.

(** ** Looking names up *)
Section Lookup.
  Variables (cfg : config) (s : snapshot).
  Hypothesis F : fair cfg.
  Hypothesis S : sane s.
  Definition known (k : cid) : Prop := exists n, k = Committed n /\ lt n (size s).
  Lemma read_known k : known k -> exists c, lookup s (match k with Committed n | Uncommitted n => n end) = Some c /\
    read_concept cfg s delta_default k = Ok (mixed_of_committed c).
  Proof.
    intros (n & -> & L). destruct (lookup s n) as [c|] eqn:E; [exists c; split; [reflexivity|apply read_at, E]|].
    unfold lookup in E. apply nth_error_None in E. unfold size in L. lia.
  Qed.
  Lemma listed_known n c k : lookup s n = Some c -> In k (m_reduces_from cfg (mixed_of_committed c)) -> known k.
  Proof.
    intros L I. apply (listed_of cfg F) in I. destruct I as (m & -> & I). exists m. split; [reflexivity|].
    destruct (proj1 (sane_ids s S) n c L) as (_ & _ & _ & H & _). exact (H m I).
  Qed.
  Lemma composed_known n c l r : lookup s n = Some c -> m_composition (mixed_of_committed c) = Some (l, r) -> known l /\ known r.
  Proof.
    intros L C. destruct (composition_read_some c _ C) as (a & b & [= -> ->]).
    destruct (proj1 (sane_ids s S) n c L) as (_ & _ & _ & _ & H).
    unfold m_composition, mixed_of_committed, get_composition in C. unfold okspec in H.
    destruct (c_spec c) as [|[l' r' fv bv|] red|]; try discriminate C. injection C as -> ->. cbn in H.
    destruct H as [H _]. cbn in H. unfold known. split; eexists; (split; [reflexivity|]); apply H.
  Qed.
  Lemma calm_labellee fuel : forall ks, (forall k, In k ks -> known k) -> calm (labellee_loop cfg s delta_default fuel ks) /\
    forall x, labellee_loop cfg s delta_default fuel ks = Ok (Some x) -> known x.
  Proof.
    induction fuel as [|fuel IH]; intros [|k ks] K; cbn [labellee_loop];
      try (split; [apply calm_ok|discriminate]); [split; [now left|discriminate]|].
    destruct (read_known k (K k (or_introl eq_refl))) as (c & L & R). rewrite R. cbn [obind].
    assert (H : forall k', In k' (ks ++ m_reduces_from cfg (mixed_of_committed c)) -> known k').
    { intros k' I. apply in_app_iff in I. destruct I as [I|I]; [apply K; now right|eapply listed_known; eassumption]. }
    specialize (IH _ H). destruct (m_composition (mixed_of_committed c)) as [[l r]|] eqn:C; [|exact IH].
    destruct (composed_known _ _ _ _ L C) as [Kl Kr]. destruct (read_known l Kl) as (cl & _ & Rl).
    unfold concrete_concept_type. rewrite Rl. cbn [omap obind].
    destruct (opt_cct_eqb _ _); [|exact IH]. split; [apply calm_ok|]. intros x [= <-]. exact Kr.
  Qed.
  Lemma calm_from_label fuel t : calm (concept_from_label cfg s delta_default fuel t) /\
    forall x, concept_from_label cfg s delta_default fuel t = Ok (Some x) -> known x.
  Proof.
    unfold concept_from_label. rewrite string_lookup. cbn [obind].
    destruct (aget text_eqb t (string_map s)) as [n|] eqn:A; cbn [option_map]; [|split; [apply calm_ok|discriminate]].
    assert (K : known (Committed n)).
    { exists n. split; [reflexivity|]. apply (aget_in _ text_eqb_spec) in A. exact (proj1 (proj2 (sane_ids s S)) t n A). }
    destruct (read_known _ K) as (c & L & R). unfold get_labellee. rewrite R. cbn [obind].
    apply calm_labellee. intros k. apply (listed_known _ _ _ L).
  Qed.
  Lemma calm_kind fuel c t : c_snap c = s -> c_delta c = delta_default -> calm (kind_of_symbol cfg fuel c t).
  Proof.
    intros Es Ed. unfold kind_of_symbol. destruct (is_variable_symbol t); [apply calm_ok|]. rewrite Es, Ed.
    destruct (calm_from_label fuel t) as [C K]. apply calm_bind; [exact C|]. intros [x|] E; [|apply calm_ok].
    destruct (read_known x (K x E)) as (k & _ & R). rewrite R. apply calm_ok.
  Qed.

  (** ** Enough steps *)
  Hypothesis AC : forall n, ~ clos_trans nat (reduces s) n n.
  Hypothesis LR : listed_reductions_are_real s.
  Lemma reduces_lt m n : reduces s m n -> lt m (size s).
  Proof. intros (c & k & L & _). unfold lookup in L. apply nth_error_Some. congruence. Qed.
  Lemma from_chain k : forall n l, NoDup (n :: l) -> (forall x, In x l -> lt x (size s)) -> lt n (size s) ->
    (forall x, In x l -> clos_trans nat (reduces s) n x) -> le (size s) (List.length l + k) -> Acc (reduces s) n.
  Proof.
    induction k as [|k IH]; intros n l N B Bn C L.
    - assert (H : le (List.length (n :: l)) (List.length (seq 0 (size s)))).
      { apply NoDup_incl_length; [exact N|]. intros x [<-|X]; apply in_seq; [lia|]. specialize (B x X). lia. }
      rewrite seq_length in H. cbn in H. lia.
    - constructor. intros m R. apply (IH m (n :: l)).
      + constructor; [|exact N]. intros [<-|X]; [apply (AC n), t_step, R|].
        apply (AC m). eapply t_trans; [apply t_step, R|apply C, X].
      + intros x [<-|X]; auto.
      + eapply reduces_lt, R.
      + intros x [<-|X]; [apply t_step, R|]. eapply t_trans; [apply t_step, R|apply C, X].
      + cbn. lia.
  Qed.
  Lemma from_founded n : Acc (reduces s) n.
  Proof.
    constructor. intros m R. apply (from_chain (size s) m []).
    - repeat constructor. intros [].
    - intros x [].
    - eapply reduces_lt, R.
    - intros x [].
    - cbn. lia.
  Qed.
  (** The number of concepts that reduce to [n], itself included. *)
  Inductive weighs : cid -> nat -> Prop :=
  | Weighs k c w : known k -> lookup s (match k with Committed n | Uncommitted n => n end) = Some c ->
      weigh_all (m_reduces_from cfg (mixed_of_committed c)) w -> weighs k (1 + w)
  with weigh_all : list cid -> nat -> Prop :=
  | WeighNone : weigh_all [] 0
  | WeighMore k ks w v : weighs k w -> weigh_all ks v -> weigh_all (k :: ks) (w + v).
  Lemma weigh_list ks : (forall k, In k ks -> exists w, weighs k w) -> exists w, weigh_all ks w.
  Proof.
    induction ks as [|k ks IH]; intros H; [exists 0; constructor|].
    destruct (H k (or_introl eq_refl)) as (w & W). destruct IH as (v & V); [intros; apply H; now right|].
    exists (w + v). now constructor.
  Qed.
  Lemma weighed n : lt n (size s) -> exists w, weighs (Committed n) w.
  Proof.
    induction (from_founded n) as [n _ IH]. intros L.
    assert (K : known (Committed n)) by (exists n; auto). destruct (read_known _ K) as (c & E & _).
    destruct (weigh_list (m_reduces_from cfg (mixed_of_committed c))) as (w & W).
    - intros k I. pose proof (listed_known _ _ _ E I) as (m & -> & Lm). apply IH; [|exact Lm].
      apply LR. exists c. split; [exact E|]. apply (listed_of cfg F) in I. destruct I as (m' & [= ->] & I). exact I.
    - exists (1 + w). econstructor; eassumption.
  Qed.
  Lemma weigh_app ks w : weigh_all ks w -> forall ls v, weigh_all ls v -> weigh_all (ks ++ ls) (w + v).
  Proof.
    induction 1 as [|k ks w v W _ IH]; intros ls u U; [exact U|]. cbn. rewrite <- Nat.add_assoc. constructor; auto.
  Qed.
  Lemma labellee_ends fuel : forall ks w, weigh_all ks w -> le w fuel ->
    exists r, labellee_loop cfg s delta_default fuel ks = Ok r.
  Proof.
    induction fuel as [|fuel IH]; intros ks w W L.
    - destruct W as [|k ks w v [k' c w' _ _ _] _]; [exists None; reflexivity|lia].
    - destruct W as [|k ks w v [k' c w' K E W] V]; [exists None; reflexivity|]. cbn [labellee_loop].
      destruct (read_known k' K) as (c' & E' & R). rewrite E in E'. injection E' as <-. rewrite R. cbn [obind].
      destruct (IH (ks ++ m_reduces_from cfg (mixed_of_committed c)) (v + w') (weigh_app _ _ V _ _ W) ltac:(lia)) as (r & H).
      destruct (m_composition (mixed_of_committed c)) as [[l x]|] eqn:C; [|exists r; exact H].
      destruct (composed_known _ _ _ _ E C) as [Kl _]. destruct (read_known l Kl) as (cl & _ & Rl).
      unfold concrete_concept_type. rewrite Rl. cbn [omap obind].
      destruct (opt_cct_eqb _ _); eauto.
  Qed.
  Lemma from_label_ends t : exists f, forall fuel, le f fuel -> exists r, concept_from_label cfg s delta_default fuel t = Ok r.
  Proof.
    unfold concept_from_label. rewrite string_lookup. cbn [obind].
    destruct (aget text_eqb t (string_map s)) as [n|] eqn:A; cbn [option_map]; [|exists 0; eauto].
    assert (K : known (Committed n)).
    { exists n. split; [reflexivity|]. apply (aget_in _ text_eqb_spec) in A. exact (proj1 (proj2 (sane_ids s S)) t n A). }
    destruct (read_known _ K) as (c & L & R). unfold get_labellee. rewrite R. cbn [obind].
    destruct (weigh_list (m_reduces_from cfg (mixed_of_committed c))) as (w & W).
    - intros k I. destruct (listed_known _ _ _ L I) as (m & -> & Lm). apply weighed, Lm.
    - exists w. intros fuel H. eapply labellee_ends; eassumption.
  Qed.
  (** One number of steps for all texts: only the finitely many known strings matter. *)
  Lemma labels_end : exists f, forall fuel, le f fuel -> forall t, exists r, concept_from_label cfg s delta_default fuel t = Ok r.
  Proof.
    assert (H : forall m : list (text * nat), exists f, forall fuel, le f fuel ->
      forall t n, In (t, n) m -> exists r, concept_from_label cfg s delta_default fuel t = Ok r).
    { induction m as [|[t n] m (f & IH)]; [exists 0; intros fuel _ t n []|]. destruct (from_label_ends t) as (g & G).
      exists (f + g). intros fuel L u k [[= <- <-]|I]; [apply G; lia|]. apply (IH fuel ltac:(lia) u k I). }
    destruct (H (string_map s)) as (f & G). exists f. intros fuel L t.
    destruct (aget text_eqb t (string_map s)) as [n|] eqn:A.
    - apply (G fuel L t n). apply (aget_in _ text_eqb_spec), A.
    - exists None. unfold concept_from_label. rewrite string_lookup, A. reflexivity.
  Qed.
  Lemma kinds_end : exists f, forall fuel, le f fuel -> forall c t, c_snap c = s -> c_delta c = delta_default ->
    exists k, kind_of_symbol cfg fuel c t = Ok k.
  Proof.
    destruct labels_end as (f & G). exists f. intros fuel L c t Es Ed. unfold kind_of_symbol.
    destruct (is_variable_symbol t); [eauto|]. rewrite Es, Ed. destruct (G fuel L t) as (r & E). rewrite E. cbn [obind].
    destruct r as [x|]; [|eauto]. destruct (read_known x (proj2 (calm_from_label fuel t) x E)) as (k & _ & R). rewrite R.
    cbn [obind]. eauto.
  Qed.
End Lookup.
