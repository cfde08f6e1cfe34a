(** C73: in sessions of declarations it does not matter which words are used. *)
From Verif Require Import Start Lexer LexerSpec Snapshot Search Context StoreSpec NameSpec StoreInv StoreFacts MapFacts AstFacts History Steps Keep Sim Meaning Settled Links CacheLife Displays Sample Witness NameWitness
  Spelled Asking Unruled Answers Replies Checks Phrases Groups Flat Outlines Notebook Notes PropertiesAnswers PropertiesWords PropertiesUttered PropertiesNotebook PropertiesChecks.
From Coq Require Import String List Relations PeanoNat Bool Lia.
Import ListNotations.
Local Open Scope string_scope.

(** ** Specification *)
(** Different words become different words, those of the language and those known already ([W]) stay, and other
    words become words that the store does not know either. *)
Record renaming (s : snapshot) (W : list text) (rho : text -> text) : Prop := {
  rn_one : forall a b, rho a = rho b -> a = b;
  rn_fixed : forall w, In w reserved \/ In w W -> rho w = w;
  rn_word : forall w, word w -> ~ underscored w -> word (rho w) /\ ~ underscored (rho w);
  rn_unknown : forall w, word w -> ~ underscored w -> (forall n, ~ found_under s w n) -> forall n, ~ found_under s (rho w) n
}.
Section Renaming.
  Variable rho : text -> text.
  Fixpoint rename_phrase (p : phrase) : phrase :=
    match p with Word w => Word (rho w) | Both a b => Both (rename_phrase a) (rename_phrase b) end.
  Fixpoint rename_outline (o : outline) : outline :=
    match o with Term w => Term (rho w) | Several os => Several (map rename_outline os) end.
  Definition rename (n : note) : note :=
    match n with
    | Tell w v => Tell (rho w) (rho v)
    | Forget w => Forget (rho w)
    | Ask w => Ask (rho w)
    | Check w v => Check (rho w) (rho v)
    | Phrase ws => Phrase (map rho ws)
    | Group p => Group (rename_phrase p)
    | PlainCheck w v => PlainCheck (rho w) (rho v)
    | PlainPhrase ws => PlainPhrase (map rho ws)
    | Doubt pl w v => Doubt pl (rho w) (rho v)
    | Outline os => Outline (map rename_outline os)
    | Object w v => Object (rho w) (rho v)
    | Idle w => Idle (rho w)
    | Accept w v => Accept (rho w) (rho v)
    | Drop short w => Drop short (rho w)
    | NameOf w => NameOf (rho w)
    end.
  (** The second answer is the first one with the words of the user renamed.  In sessions that have other
      expressions than sequences ([td] is [false]), brackets are not looked at. *)
  Inductive reworded (td : bool) : text -> text -> Prop :=
  | RewordedFixed a : In a [[]; txt "true"; txt "false"; refusal; txt "Cannot allow a chain of reduction rules to loop."] -> reworded td a a
  | RewordedWords ws : Forall word ws -> reworded td (joined ws) (joined (map rho ws))
  | RewordedBare ws a b : td = false -> Forall word ws -> bare a = joined ws -> bare b = joined (map rho ws) -> reworded td a b
  | RewordedWord w : word w -> reworded td w (rho w)
  | RewordedName w : word w -> reworded td (quoted w) (quoted (rho w))
  | RewordedKept w u : word w -> word u -> reworded td (w ++ txt " already reduces to " ++ u)%list (rho w ++ txt " already reduces to " ++ rho u)%list
  | RewordedNothing w : word w -> reworded td (txt "That reduction rule for " ++ w ++ txt " already exists.")%list (txt "That reduction rule for " ++ rho w ++ txt " already exists.")%list.

  (** ** Lemmas *)
  Definition both (p : text * text) : text * text := (rho (fst p), rho (snd p)).
  Notation renamed := (map both).
  Hypothesis one : forall a b, rho a = rho b -> a = b.
  Lemma renamed_in w v B : In (w, v) B -> In (rho w, rho v) (renamed B).
  Proof. intros J. exact (in_map both _ _ J). Qed.
  Lemma renamed_back w y B : In (rho w, y) (renamed B) -> exists v, y = rho v /\ In (w, v) B.
  Proof. intros J. apply in_map_iff in J. destruct J as ([a v] & E & J). injection E as E <-. apply one in E. subst a. eauto. Qed.
  Lemma renamed_none w B : (forall v, ~ In (w, v) B) -> forall v, ~ In (rho w, v) (renamed B).
  Proof. intros N v J. apply renamed_back in J. destruct J as (x & _ & J). exact (N x J). Qed.
  Lemma renamed_leads B w z : leads_to B w z -> leads_to (renamed B) (rho w) (rho z).
  Proof. induction 1 as [w N|w v z J _ IH]; [apply LeadsHere, renamed_none, N|eapply LeadsOn; [apply renamed_in, J|exact IH]]. Qed.
  Lemma renamed_led B x y : leads_to (renamed B) x y -> forall w, x = rho w -> exists z, y = rho z /\ leads_to B w z.
  Proof.
    induction 1 as [x N|x v y J _ IH]; intros w ->.
    - exists w. split; [reflexivity|]. apply LeadsHere. intros v J. exact (N _ (renamed_in _ _ _ J)).
    - apply renamed_back in J. destruct J as (u & -> & J). destruct (IH u eq_refl) as (z & -> & L). exists z. split; [reflexivity|]. eapply LeadsOn; eassumption.
  Qed.
  Lemma renamed_away B n x y : away (renamed B) n x y -> forall w, x = rho w -> exists z, y = rho z /\ away B n w z.
  Proof.
    induction 1 as [x N|n x v y J _ IH]; intros w ->.
    - exists w. split; [reflexivity|]. apply AwayHere. intros v J. exact (N _ (renamed_in _ _ _ J)).
    - apply renamed_back in J. destruct J as (u & -> & J). destruct (IH u eq_refl) as (z & -> & L). exists z. split; [reflexivity|]. eapply AwayOn; eassumption.
  Qed.
  Lemma renamed_passes B x y : passes (renamed B) x y -> forall w, x = rho w -> exists z, y = rho z /\ passes B w z.
  Proof.
    induction 1 as [x v J|x u v J _ IH]; intros w ->.
    - apply renamed_back in J. destruct J as (u & -> & J). exists u. split; [reflexivity|apply PassesNext, J].
    - apply renamed_back in J. destruct J as (y & -> & J). destruct (IH y eq_refl) as (z & -> & L). exists z. split; [reflexivity|]. eapply PassesOn; eassumption.
  Qed.
  Lemma renamed_all B ws ys : Forall2 (leads_to (renamed B)) (map rho ws) ys -> exists vs, ys = map rho vs /\ Forall2 (leads_to B) ws vs.
  Proof.
    revert ys. induction ws as [|w ws IH]; intros ys H; inversion H as [|? ? ? ? L R]; subst; [exists []; auto|].
    destruct (renamed_led _ _ _ L w eq_refl) as (z & -> & L'). destruct (IH _ R) as (vs & -> & R'). exists (z :: vs). auto.
  Qed.
  Lemma renamed_without w B : without (rho w) (renamed B) = renamed (without w B).
  Proof.
    induction B as [|[a v] B IH]; [reflexivity|]. unfold without in *. cbn [map filter fst both snd].
    destruct (list_eq_dec BinNat.N.eq_dec (rho a) (rho w)) as [E|N]; destruct (list_eq_dec BinNat.N.eq_dec a w) as [E'|N'].
    - exact IH.
    - apply one in E. contradiction.
    - subst a. contradiction.
    - cbn [map both fst snd]. f_equal. exact IH.
  Qed.
  Lemma renamed_words p : words_of (rename_phrase p) = map rho (words_of p).
  Proof. induction p as [w|a IHa b IHb]; cbn; [reflexivity|]. now rewrite IHa, IHb, map_app. Qed.
  Lemma renamed_terms : (forall o, terms_of (rename_outline o) = map rho (terms_of o)) /\ forall os, all_terms (map rename_outline os) = map rho (all_terms os).
  Proof.
    apply outline_both; try reflexivity.
    - intros os IH. exact IH.
    - intros o os Io IHs. unfold all_terms in *. cbn [map concat]. now rewrite Io, IHs, map_app.
  Qed.
  Lemma renamed_sized o : sized o -> sized (rename_outline o).
  Proof.
    induction 1 as [w|os L _ IH]; [apply SizedTerm|]. cbn [rename_outline]. apply SizedSeveral; [now rewrite map_length|].
    intros o J. apply in_map_iff in J. destruct J as (o' & <- & J). apply IH, J.
  Qed.
  Lemma renamed_clear o : unambiguous o -> unambiguous (rename_outline o).
  Proof.
    induction 1 as [w|os L _ IH]; [apply ClearTerm|]. cbn [rename_outline]. apply ClearSeveral; [rewrite map_length|].
    - destruct L as [L|(w & J)]; [now left|]. right. exists (rho w). exact (in_map rename_outline _ _ J).
    - intros o J. apply in_map_iff in J. destruct J as (o' & <- & J). apply IH, J.
  Qed.
  Lemma clear_renamed x : unambiguous x -> forall o, x = rename_outline o -> unambiguous o.
  Proof.
    induction 1 as [w|os L _ IH]; intros [w'|os'] E; try discriminate E; [apply ClearTerm|]. injection E as ->. apply ClearSeveral.
    - rewrite map_length in L. destruct L as [L|(w & J)]; [now left|]. right. apply in_map_iff in J. destruct J as ([v|] & E & J); [eauto|discriminate].
    - intros o J. exact (IH _ (in_map _ _ _ J) o eq_refl).
  Qed.
  Lemma renamed_objection B w v a : objection B w v a -> exists b, objection (renamed B) (rho w) (rho v) b.
  Proof.
    intros [x y u J N|x y U L N|x U].
    - eexists. apply ObjectionKept; [apply renamed_in, J|]. intros E. exact (N (one _ _ E)).
    - eexists. apply ObjectionLoop; [apply renamed_none, U|apply renamed_leads, L|]. intros E. exact (N (one _ _ E)).
    - eexists. apply ObjectionSame, renamed_none, U.
  Qed.
  Definition wordy (B : list (text * text)) : Prop := forall w v, In (w, v) B -> word v.
  Lemma wordy_leads B w z : wordy B -> leads_to B w z -> word w -> word z.
  Proof. intros K. induction 1 as [w N|w v z J _ IH]; [auto|]. intros _. exact (IH (K _ _ J)). Qed.
  Lemma wordy_all B ws vs : wordy B -> Forall2 (leads_to B) ws vs -> Forall word ws -> Forall word vs.
  Proof. intros K. induction 1 as [|w v ws vs L _ IH]; intros H; inversion H; subst; constructor; [eapply wordy_leads; eassumption|auto]. Qed.
  Lemma objection_reworded td B w v a b : word w -> wordy B -> single B -> objection B w v a -> objection (renamed B) (rho w) (rho v) b -> reworded td a b.
  Proof.
    intros Ww KB S H K. inversion K as [x y u J N E1 E2 E3|x y U L N E1 E2 E3|x U E1 E2 E3]; subst.
    - apply renamed_back in J. destruct J as (u' & -> & J).
      rewrite (objection_once _ _ _ _ _ S H (ObjectionKept B w v u' J (fun E => N (f_equal rho E)))). apply RewordedKept; [exact Ww|exact (KB _ _ J)].
    - destruct (renamed_led _ _ _ L v eq_refl) as (z & E & L'). apply one in E. subst z.
      assert (U' : forall u, ~ In (w, u) B) by (intros u J; exact (U _ (renamed_in _ _ _ J))).
      rewrite (objection_once _ _ _ _ _ S H (ObjectionLoop B w v U' L' (fun E => N (f_equal rho E)))). apply RewordedFixed. cbn [In]. auto 10.
    - assert (E : w = v) by (apply one; congruence). subst v.
      assert (U' : forall u, ~ In (w, u) B) by (intros u J; exact (U _ (renamed_in _ _ _ J))).
      rewrite (objection_once _ _ _ _ _ S H (ObjectionSame B w U')). apply RewordedNothing, Ww.
  Qed.
  Lemma renamed_tidy ns : tidy (map rename ns) = tidy ns.
  Proof. unfold tidy. induction ns as [|n ns IH]; [reflexivity|]. cbn [map forallb]. rewrite IH. destruct n; reflexivity. Qed.

  Section Written.
    Variables (s : snapshot) (W0 : list text).
    Hypothesis RN : renaming s W0 rho.
    Lemma renamed_usable W w : usable s W w -> usable s (map rho W) (rho w).
    Proof.
      intros (H1 & H2 & H3). destruct (rn_word _ _ _ RN w H1 H2). split; [assumption|]. split; [assumption|].
      destruct H3 as [J|N]; [left; apply in_map, J|right; exact (rn_unknown _ _ _ RN w H1 H2 N)].
    Qed.
    Lemma not_reserved z l : (forall w, In w l -> In w reserved) -> ~ In z l -> ~ In (rho z) l.
    Proof.
      intros I N J. apply N. pose proof (rn_fixed _ _ _ RN (rho z) (or_introl (I _ J))) as E. apply one in E. rewrite <- E. exact J.
    Qed.
    Lemma renamed_common B w : common B w -> common (renamed B) (rho w).
    Proof.
      intros C z H. destruct H as [<-|H]; [apply not_reserved; [auto|apply C; now left]|].
      destruct (renamed_passes _ _ _ H w eq_refl) as (y & -> & P). apply not_reserved; [auto|apply C; now right].
    Qed.
    Lemma renamed_each W B ws : Forall (fun w => In w W /\ common B w) ws -> Forall (fun w => In w (map rho W) /\ common (renamed B) w) (map rho ws).
    Proof. induction 1 as [|w ws [J C] _ IH]; cbn [map]; constructor; [split; [apply in_map, J|apply renamed_common, C]|exact IH]. Qed.
    Lemma commands_reserved w : In w [txt "let"; txt "forget"; txt "label_of"] -> In w reserved.
    Proof. unfold reserved. cbn [In map]. intros [<-|[<-|[<-|[]]]]; auto 20. Qed.
    Lemma renamed_written W B ns : written s W B ns -> written s (map rho W) (renamed B) (map rename ns).
    Proof.
      induction 1 as [W B|W B w v ns U1 U2 N _ IH|W B w ns J _ IH|W B w ns J _ IH|W B w v z ns Jw Jv Lw Lv Z _ IH|W B ws ns L A _ IH|W B p ns C A _ IH|W B w v z ns Jw Jv Lw Lv Z Rw Rv _ IH|W B ws ns L A _ IH|W B pl w v z z' ns Jw Jv Lw Lv Zz Rz Rz' P _ IH|W B os ns Sz A _ IH|W B w v b ns Jw Jv C O _ IH|W B w ns J N _ IH|W B w v ns Jw Jv C N NL _ IH|W B sh w u ns J I C _ IH|W B w ns J _ IH]; cbn [map rename].
      - constructor.
      - apply WrittenTell; [apply renamed_usable, U1|apply renamed_usable, U2|apply renamed_none, N|exact IH].
      - apply WrittenForget; [apply in_map, J|]. rewrite renamed_without. exact IH.
      - apply WrittenAsk; [apply in_map, J|exact IH].
      - eapply WrittenCheck; [apply in_map, Jw|apply in_map, Jv|apply renamed_leads, Lw|apply renamed_leads, Lv|apply not_reserved; [exact commands_reserved|exact Z]|exact IH].
      - apply WrittenPhrase; [now rewrite map_length|apply renamed_each, A|exact IH].
      - apply WrittenGroup; [destruct p; [destruct C|exact I]|rewrite renamed_words; apply renamed_each, A|exact IH].
      - eapply WrittenPlainCheck; [apply in_map, Jw|apply in_map, Jv|apply renamed_leads, Lw|apply renamed_leads, Lv|apply not_reserved; [exact commands_reserved|exact Z]| | |exact IH];
          apply not_reserved; auto.
      - apply WrittenPlainPhrase; [now rewrite map_length|apply renamed_each, A|exact IH].
      - eapply WrittenDoubt; [apply in_map, Jw|apply in_map, Jv|apply renamed_leads, Lw|apply renamed_leads, Lv|intros E; exact (Zz (one _ _ E))| | | |exact IH].
        + apply not_reserved; auto.
        + apply not_reserved; auto.
        + intros T. destruct (P T). split; apply not_reserved; auto.
      - apply WrittenOutline; [exact (renamed_sized _ Sz)|rewrite (proj2 renamed_terms); apply renamed_each, A|exact IH].
      - destruct (renamed_objection _ _ _ _ O) as (a & O'). eapply WrittenObject; [apply in_map, Jw|apply in_map, Jv|apply renamed_common, C|exact O'|exact IH].
      - apply WrittenIdle; [apply in_map, J|apply renamed_none, N|exact IH].
      - apply WrittenAccept; [apply in_map, Jw|apply in_map, Jv|apply renamed_common, C|apply renamed_none, N| |exact IH].
        intros L. destruct (renamed_led _ _ _ L v eq_refl) as (z & E & L'). apply one in E. subst z. exact (NL L').
      - eapply WrittenDrop; [apply in_map, J|apply renamed_in, I|intros E; apply renamed_common, C, E|]. rewrite renamed_without. exact IH.
      - apply WrittenNameOf; [apply in_map, J|exact IH].
    Qed.
    Lemma renamed_answers td W B ns answers others : (forall w, In w W -> word w) -> wordy B -> single B -> written s W B ns -> (td = true -> tidy ns = true) ->
      replies td B ns answers -> replies td (renamed B) (map rename ns) others -> Forall2 (reworded td) answers others.
    Proof.
      intros KW KB S H T. revert KW KB S T answers others.
      assert (CONS : forall B (w v : text), single B -> (forall u, ~ In (w, u) B) -> single ((w, v) :: B)).
      { intros B0 w v S N a b d [E1|J1] [E2|J2]; [congruence| | |exact (S _ _ _ J1 J2)].
        - injection E1 as -> ->. destruct (N _ J2).
        - injection E2 as -> ->. destruct (N _ J1). }
      assert (DROP : forall B (w : text), single B -> single (without w B)).
      { intros B0 w S a b d J1 J2. apply without_spec in J1, J2. exact (S _ _ _ (proj1 J1) (proj1 J2)). }
      assert (MORE : forall (W : list text) w v, (forall x, In x W -> word x) -> word w -> word v -> forall x, In x (w :: v :: W) -> word x).
      { intros W1 w v K Kw Kv x [<-|[<-|J]]; auto. }
      assert (WIDE : forall B w v, wordy B -> word v -> wordy ((w, v) :: B)).
      { intros B0 w v K Kv a b [E|J]; [injection E as <- <-; exact Kv|exact (K _ _ J)]. }
      assert (LESS : forall B w, wordy B -> wordy (without w B)).
      { intros B0 w K a b J. apply without_spec in J. exact (K _ _ (proj1 J)). }
      assert (EACH : forall (W : list text) B ws, (forall x, In x W -> word x) -> Forall (fun w => In w W /\ common B w) ws -> Forall word ws).
      { intros W1 B0 ws K A. refine (Forall_impl _ _ A). intros x [J _]. exact (K x J). }
      assert (TRUE : forall b : bool, reworded td (if b then txt "true" else txt "false") (if b then txt "true" else txt "false")).
      { intros b. apply RewordedFixed. destruct b; cbn [In]; auto. }
      assert (AWAY : forall B w v m n m' n' z y z' , single B -> away B m w z -> away B n v z' -> away (renamed B) m' (rho w) y -> away (renamed B) n' (rho v) y ->
        reworded td (if Nat.ltb n m then txt "true" else txt "false") (if Nat.ltb n' m' then txt "true" else txt "false")).
      { intros B0 w v m n m' n' z y z' S A1 A2 A3 A4. destruct (renamed_away _ _ _ _ A3 w eq_refl) as (x & _ & A3'). destruct (renamed_away _ _ _ _ A4 v eq_refl) as (x' & _ & A4').
        destruct (away_one _ _ _ _ _ _ S A1 A3') as [-> _]. destruct (away_one _ _ _ _ _ _ S A2 A4') as [-> _]. apply TRUE. }
      assert (ROW : forall B ws vs us a b, Forall word ws -> wordy B -> single B -> Forall2 (leads_to B) ws vs -> Forall2 (leads_to (renamed B)) (map rho ws) us ->
        (if td then a else bare a) = joined vs -> (if td then b else bare b) = joined us -> reworded td a b).
      { intros B0 ws vs us a b AW KB S A1 A2 Ea Eb. pose proof (wordy_all _ _ _ KB A1 AW) as AV. destruct (renamed_all _ _ _ A2) as (vs' & -> & A2'). rewrite (all_lead_once _ _ _ S A2' _ A1) in *.
        destruct td; [subst; apply RewordedWords, AV|apply (RewordedBare false vs); auto]. }
      induction H as [W B|W B w v ns U1 U2 N _ IH|W B w ns _ _ IH|W B w ns Jw _ IH|W B w v z ns _ _ _ _ _ _ IH|W B ws ns _ A _ IH|W B p ns _ A _ IH|W B w v z ns _ _ _ _ _ _ _ _ IH|W B ws ns _ A _ IH|W B pl w v z z' ns Jw Jv _ _ _ _ _ _ _ IH|W B os ns _ A _ IH|W B w v b ns Jw _ _ _ _ IH|W B w ns Jw _ _ IH|W B w v ns Jw Jv _ N _ _ IH|W B sh w u ns _ _ _ _ IH|W B w ns Jw _ IH];
        intros KW KB S T answers others H1 H2; cbn [map rename] in H2; inversion H1; inversion H2; subst; constructor;
        try solve [apply RewordedFixed; left; reflexivity];
        try solve [apply (IH KW KB S T); assumption];
        try solve [refine (IH (MORE _ _ _ KW (proj1 U1) (proj1 U2)) (WIDE _ _ _ KB (proj1 U2)) (CONS _ _ _ S N) T _ _ _ _); assumption];
        try solve [refine (IH (MORE _ _ _ KW (KW _ Jw) (KW _ Jv)) (WIDE _ _ _ KB (KW _ Jv)) (CONS _ _ _ S N) T _ _ _ _); assumption];
        try solve [eapply AWAY; eassumption];
        try solve [eapply ROW; [exact (EACH _ _ _ KW A)|..]; eassumption];
        try solve [eapply objection_reworded; [exact (KW _ Jw)|..]; eassumption];
        try solve [apply RewordedNothing, (KW _ Jw)]; try solve [apply RewordedName, (KW _ Jw)];
        try solve [refine (IH KW (LESS _ _ KB) (DROP _ _ S) T _ _ _ _); [assumption|rewrite <- renamed_without; assumption]];
        try solve [eapply IH; [exact KW|exact KB|exact S|intros E; specialize (T E); discriminate T|eassumption|eassumption]].
      - match goal with K : leads_to (renamed _) _ _ |- _ => destruct (renamed_led _ _ _ K w eq_refl) as (x & -> & K') end.
        match goal with K : leads_to B w z |- _ => rewrite (leads_to_one _ _ _ _ S K K') end. apply RewordedWord. exact (wordy_leads _ _ _ KB K' (KW _ Jw)).
      - destruct td; [specialize (T eq_refl); discriminate T|]. match goal with K : Forall2 _ (words_of (rename_phrase p)) _ |- _ => rewrite renamed_words in K end. eapply ROW; [exact (EACH _ _ _ KW A)|..]; eassumption.
      - match goal with K : leads_to (renamed _) (rho w) _, K2 : leads_to (renamed _) (rho v) _ |- _ =>
          destruct (renamed_led _ _ _ K w eq_refl) as (x & -> & K'); destruct (renamed_led _ _ _ K2 v eq_refl) as (x' & -> & K2') end.
        match goal with K : leads_to B w z0, K2 : leads_to B v z'0 |- _ => rewrite (leads_to_one _ _ _ _ S K K'), (leads_to_one _ _ _ _ S K2 K2') end.
        assert (E : rho (txt "->") = txt "->") by (apply (rn_fixed _ _ _ RN); left; unfold reserved; cbn [In map]; auto 20).
        rewrite <- E at 2. refine (RewordedWords td [x; txt "->"; x'] _).
        constructor; [exact (wordy_leads _ _ _ KB K' (KW _ Jw))|]. constructor; [exact (proj1 (plain_word_ok (txt "->") eq_refl))|].
        constructor; [exact (wordy_leads _ _ _ KB K2' (KW _ Jv))|constructor].
      - destruct td; [specialize (T eq_refl); discriminate T|]. match goal with K : Forall2 _ (all_terms (map _ _)) _ |- _ => rewrite (proj2 renamed_terms) in K end. eapply ROW; [exact (EACH _ _ _ KW A)|..]; eassumption.
      - exfalso. match goal with N : ~ unambiguous _, U : unambiguous _ |- _ => exact (N (renamed_clear _ U)) end.
      - exfalso. match goal with N : ~ unambiguous _, U : unambiguous _ |- _ => exact (N (clear_renamed _ U (Several os) eq_refl)) end.
      - apply RewordedFixed. cbn [In]. auto.
    Qed.
  End Written.
End Renaming.

Lemma built_in_words_checked : forallb plain_word_b (map fst (names_of built_in_words)) = true.
Proof. vm_compute. reflexivity. Qed.
Lemma built_in_words_are_words w : In w (map fst (names_of built_in_words)) -> word w.
Proof. intros J. pose proof built_in_words_checked as H. rewrite forallb_forall in H. exact (proj1 (plain_word_ok w (H w J))). Qed.

(** ** Theorem *)
Theorem C73_words_are_interchangeable rho cfg fuel cfg' fuel' ns answers answers' c d :
  fair cfg -> dbg cfg = true -> fair cfg' -> dbg cfg' = true ->
  renaming (c_snap context0) (map fst (names_of built_in_words)) rho ->
  written (c_snap context0) (map fst (names_of built_in_words)) [] ns ->
  run_session cfg fuel (map line ns) context0 = Ok (answers, c) -> Forall2 silent ns answers ->
  run_session cfg' fuel' (map line (map (rename rho) ns)) context0 = Ok (answers', d) -> Forall2 silent (map (rename rho) ns) answers' ->
  Forall2 (reworded rho (tidy ns)) answers answers'.
Proof.
  intros F D F' D' R W E SI E' SI'.
  assert (W' : written (c_snap context0) (map fst (names_of built_in_words)) [] (map (rename rho) ns)).
  { pose proof (renamed_written rho (rn_one _ _ _ R) _ _ R _ _ _ W) as H. cbn [map] in H.
    assert (X : forall l, (forall w, In w l -> rho w = w) -> map rho l = l).
    { induction l as [|w l IH]; intros K; [reflexivity|]. cbn [map]. rewrite (K w (or_introl eq_refl)), IH; [reflexivity|]. intros v J. apply K. now right. }
    rewrite X in H; [exact H|]. intros w J. apply (rn_fixed _ _ _ R). now right. }
  pose proof (C63_new_interpreters_take_notes cfg fuel _ _ c F D W E SI) as H. pose proof (C63_new_interpreters_take_notes cfg' fuel' _ _ d F' D' W' E' SI') as H'.
  rewrite renamed_tidy in H'. refine (renamed_answers rho (rn_one _ _ _ R) _ _ R _ _ _ ns _ _ built_in_words_are_words _ _ W _ H H'); [intros a b []|intros a b x []|auto].
Qed.
Print Assumptions C73_words_are_interchangeable.

(** ** Two words may be exchanged *)
Definition exchange (a b w : text) : text :=
  if list_eq_dec BinNat.N.eq_dec w a then b else if list_eq_dec BinNat.N.eq_dec w b then a else w.
Lemma exchange_renames s W a b : word a -> ~ underscored a -> word b -> ~ underscored b -> (forall n, ~ found_under s a n) -> (forall n, ~ found_under s b n) ->
  ~ (In a reserved \/ In a W) -> ~ (In b reserved \/ In b W) -> renaming s W (exchange a b).
Proof.
  intros Wa Ua Wb Ub Na Nb Fa Fb. constructor; unfold exchange.
  - intros x y. repeat match goal with |- context[list_eq_dec ?d ?u ?v] => destruct (list_eq_dec d u v) end; congruence.
  - intros w J. destruct (list_eq_dec _ w a) as [->|]; [contradiction|]. destruct (list_eq_dec _ w b) as [->|]; [contradiction|reflexivity].
  - intros w K U. destruct (list_eq_dec _ w a); [auto|]. destruct (list_eq_dec _ w b); auto.
  - intros w K U N. destruct (list_eq_dec _ w a); [auto|]. destruct (list_eq_dec _ w b); auto.
Qed.

(** ** Two sessions with new interpreters *)
Definition about_tom : list note :=
  (pets ++ [Ask (txt "tom"); Check (txt "tom") (txt "cat"); NameOf (txt "tom"); Object (txt "tom") (txt "dog"); Forget (txt "cat"); Phrase [txt "tom"; txt "dog"]; Forget (txt "tom"); Ask (txt "tom")])%list.
Definition tom_answers : list text := map txt [""; ""; ""; "animal"; "true"; "'tom'"; "tom already reduces to cat"; ""; "cat animal"; ""; "tom"].
Definition rex_answers : list text := map txt [""; ""; ""; "animal"; "true"; "'rex'"; "rex already reduces to cat"; ""; "cat animal"; ""; "rex"].
Definition listed_b (w : text) (l : list text) : bool := existsb (fun v => if list_eq_dec BinNat.N.eq_dec w v then true else false) l.
Lemma listed_ok w l : listed_b w l = false -> ~ In w l.
Proof.
  intros E J. unfold listed_b in E. assert (X : existsb (fun v => if list_eq_dec BinNat.N.eq_dec w v then true else false) l = true); [|congruence].
  apply existsb_exists. exists w. split; [exact J|]. destruct (list_eq_dec _ w w); congruence.
Qed.
Lemma rex_word : plain_word_b (txt "rex") && unknown_b (c_snap context0) (txt "rex") &&
  negb (listed_b (txt "rex") (reserved ++ map fst (names_of built_in_words))) && negb (listed_b (txt "tom") (reserved ++ map fst (names_of built_in_words))) = true.
Proof. vm_compute. reflexivity. Qed.
Lemma tom_answered : texts_b (run_session cfg0 fuel0 (map line about_tom) context0) tom_answers = true.
Proof. vm_compute. reflexivity. Qed.
Lemma rex_answered : texts_b (run_session cfg0 fuel0 (map line (map (rename (exchange (txt "tom") (txt "rex"))) about_tom)) context0) rex_answers = true.
Proof. vm_compute. reflexivity. Qed.
Lemma tom_written : written (c_snap context0) (map fst (names_of built_in_words)) [] about_tom.
Proof.
  generalize (map fst (names_of built_in_words)). intros W. pose proof pets_words as H. revert H. generalize (c_snap context0). intros s H. do 7 (apply andb_prop in H; destruct H as [H ?]).
  assert (NEW : forall W w, plain_word_b w = true -> unknown_b s w = true -> usable s W w).
  { intros W1 w P U. destruct (plain_word_ok w P). split; [assumption|]. split; [assumption|]. right. exact (unknown_ok _ _ U). }
  unfold about_tom. cbn [app pets]. do 3 (apply WrittenTell; [apply NEW; assumption|apply NEW; assumption|intros u J; cbn in J; decompose [or False] J; discriminate|]).
  pose proof (pets_lead (txt "tom") (or_introl eq_refl)) as Lt. pose proof (pets_lead (txt "cat") (or_intror (or_introl eq_refl))) as Lc. cbn [declared pets] in Lt, Lc.
  apply WrittenAsk; [cbn; tauto|]. eapply WrittenCheck; [cbn; tauto|cbn; tauto|exact Lt|exact Lc|intros J; cbn in J; decompose [or False] J; discriminate|].
  apply WrittenNameOf; [cbn; tauto|].
  assert (P : forall B w, incl B [(txt "dog", txt "animal"); (txt "cat", txt "animal"); (txt "tom", txt "cat")] -> In w (map txt ["tom"; "cat"; "animal"; "dog"]) -> common B w).
  { intros B w I J. assert (Q : forall z, w = z \/ passes B w z -> In z (map txt ["tom"; "cat"; "animal"; "dog"])).
    { intros z [<-|K]; [exact J|]. clear J. induction K as [w v K|w v z K _ IH]; [|exact IH]. apply I in K. cbn in K. decompose [or False] K;
      match goal with E : (_, _) = (_, _) |- _ => injection E as <- <- end; cbn; tauto. }
    intros z K R. apply Q in K. cbn in K. decompose [or False] K; subst; cbn in R; decompose [or False] R; discriminate. }
  eapply WrittenObject; [cbn; tauto|cbn; tauto|apply P; [apply incl_refl|cbn; tauto]|apply (ObjectionKept _ _ _ (txt "cat")); [cbn; tauto|discriminate]|].
  apply WrittenForget; [cbn; tauto|].
  match goal with |- written _ _ ?B _ => let B' := eval vm_compute in B in change B with B' end.
  apply WrittenPhrase; [cbn; lia|repeat (constructor; [split; [cbn; tauto|apply P; [intros p J; cbn in J |- *; tauto|cbn; tauto]]|]); constructor|].
  apply WrittenForget; [cbn; tauto|]. apply WrittenAsk; [cbn; tauto|constructor].
Qed.
Example C73_example : exists c d, fair cfg0 /\ renaming (c_snap context0) (map fst (names_of built_in_words)) (exchange (txt "tom") (txt "rex")) /\
  written (c_snap context0) (map fst (names_of built_in_words)) [] about_tom /\
  run_session cfg0 fuel0 (map line about_tom) context0 = Ok (tom_answers, c) /\ Forall2 silent about_tom tom_answers /\
  run_session cfg0 fuel0 (map line (map (rename (exchange (txt "tom") (txt "rex"))) about_tom)) context0 = Ok (rex_answers, d) /\
  Forall2 silent (map (rename (exchange (txt "tom") (txt "rex"))) about_tom) rex_answers.
Proof.
  destruct (texts_ok _ _ tom_answered) as (c & E). destruct (texts_ok _ _ rex_answered) as (d & E'). exists c, d.
  split; [exact fair0|]. split; [|split; [exact tom_written|]].
  - pose proof rex_word as X. pose proof pets_words as H. revert X H. generalize (c_snap context0), (map fst (names_of built_in_words)). intros s W X H.
    do 3 (apply andb_prop in X; destruct X as [X ?]). do 7 (apply andb_prop in H; destruct H as [H ?]).
    destruct (plain_word_ok _ X). destruct (plain_word_ok _ H).
    repeat match goal with N : negb _ = true |- _ => apply negb_true_iff, listed_ok in N; rewrite in_app_iff in N end.
    apply exchange_renames; try assumption; apply unknown_ok; assumption.
  - split; [exact E|]. split; [|split; [exact E'|]].
    + unfold about_tom, tom_answers, pets. cbn [app map]. repeat (apply Forall2_cons; [first [reflexivity|exact I]|]). apply Forall2_nil.
    + unfold about_tom, rex_answers, pets. cbn [app map rename]. repeat (apply Forall2_cons; [first [reflexivity|exact I]|]). apply Forall2_nil.
Qed.
