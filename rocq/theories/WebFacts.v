(** What the interactive page shows, described without the page_update function, and proofs. *)
From Verif Require Import WebUi StoreFacts.
From Coq Require Import String List Lia.
Import ListNotations.

(** ** Specification *)
(** The history that shows these commands with these answers, oldest first *)
Fixpoint transcript (commands answers : list text) : list entry :=
  match commands, answers with
  | c :: commands, a :: answers =>
    Entry EkCommand c :: Entry EkEvaluation a :: transcript commands answers
  | _, _ => []
  end.
(** Messages that start afresh *)
Definition starts (x : msg) : bool :=
  match x with StartEmptySession | StartTutorial _ => true | _ => false end.
(** A shown step is one of the steps *)
Definition shows_a_step (m : home) : Prop :=
  match h_tutorial m with
  | Some t => tm_showing t = false -> tm_index t < List.length (tm_steps t)
  | None => True
  end.
(** The tutorial's current step is one of its steps *)
Definition on_a_step (m : home) : Prop :=
  match h_tutorial m with
  | Some t => tm_index t < List.length (tm_steps t)
  | None => True
  end.

(** ** Proofs *)
Section Facts.
  Variable cfg : config.
  Variable fuel : nat.

  Lemma transcript_app cs as_ c a :
    List.length cs = List.length as_ ->
    transcript (cs ++ [c]) (as_ ++ [a])
    = transcript cs as_ ++ [Entry EkCommand c; Entry EkEvaluation a].
  Proof.
    revert as_. induction cs as [|x cs IH]; intros [|y l]; cbn; intros H; try discriminate H.
    - reflexivity.
    - injection H as H. rewrite IH by exact H. reflexivity.
  Qed.
  Lemma session_length cmds c rs c' :
    run_session cfg fuel cmds c = Ok (rs, c') -> List.length cmds = List.length rs.
  Proof.
    revert c rs. induction cmds as [|t cmds IH]; cbn; intros c rs E.
    - injection E as <- <-. reflexivity.
    - apply obind_ok in E. destruct E as ([r c1] & E1 & E2).
      apply obind_ok in E2. destruct E2 as ([rs' c2] & E2 & E3). injection E3 as <- <-.
      cbn. erewrite IH by exact E2. reflexivity.
  Qed.
  Lemma session_snoc cmds c rs c1 t r c2 :
    run_session cfg fuel cmds c = Ok (rs, c1) -> execute cfg fuel t c1 = Ok (r, c2) ->
    run_session cfg fuel (cmds ++ [t]) c = Ok (rs ++ [r], c2).
  Proof.
    revert c rs. induction cmds as [|x cmds IH]; intros c rs E1 E2.
    - injection E1 as <- <-. cbn. rewrite E2. reflexivity.
    - cbn in E1. apply obind_ok in E1. destruct E1 as ([r1 c3] & E1 & E3).
      apply obind_ok in E3. destruct E3 as ([rs' c4] & E3 & E4). injection E4 as <- <-.
      cbn [app run_session]. rewrite E1. cbn [obind]. rewrite (IH _ _ E3 E2). reflexivity.
  Qed.

  Lemma unwrapped_new c : unwrapped_context cfg fuel = Ok c <-> new_context cfg fuel = Ok c.
  Proof.
    unfold unwrapped_context. destruct (new_context cfg fuel); split; intros E; try exact E;
      discriminate E.
  Qed.

  Lemma submit_appends area m m' later :
    page_update cfg fuel area Submit m = Ok (m', later) ->
    exists answer,
      execute cfg fuel (h_input m) (h_context m) = Ok (answer, h_context m')
      /\ h_history m' = h_history m ++ transcript [h_input m] [answer]
      /\ h_input m' = []
      /\ h_menu_open m' = h_menu_open m.
  Proof.
    unfold page_update. intros E. apply obind_ok in E. destruct E as ([r c] & E1 & E2).
    exists r. destruct (h_tutorial m) as [[steps i b]|]; [destruct r as [|x r]|];
      injection E2 as <- <-; cbn; repeat split; try reflexivity; exact E1.
  Qed.

  Lemma others_keep area x m m' later :
    page_update cfg fuel area x m = Ok (m', later) -> x <> Submit -> starts x = false ->
    h_history m' = h_history m /\ h_context m' = h_context m.
  Proof.
    intros E N S. destruct x; cbn in S; try discriminate S; try congruence; cbn in E.
    - injection E as <- <-. split; reflexivity.
    - injection E as <- <-. split; reflexivity.
    - destruct area; injection E as <- <-; split; reflexivity.
    - apply obind_ok in E. destruct E as (s & _ & E). injection E as <- <-. split; reflexivity.
  Qed.
  Lemma starts_afresh area x m m' later :
    page_update cfg fuel area x m = Ok (m', later) -> starts x = true ->
    h_history m' = [] /\ new_context cfg fuel = Ok (h_context m') /\ h_menu_open m' = false.
  Proof.
    intros E S. destruct x; cbn in S; try discriminate S; cbn in E.
    - apply obind_ok in E. destruct E as (m1 & E1 & E2). injection E2 as <- <-.
      unfold reset in E1. apply obind_ok in E1. destruct E1 as (c & E1 & E2).
      injection E2 as <-. repeat split. apply unwrapped_new. exact E1.
    - apply obind_ok in E. destruct E as (m1 & E1 & E2).
      apply obind_ok in E2. destruct E2 as (s & _ & E2). injection E2 as <- <-.
      unfold reset in E1. apply obind_ok in E1. destruct E1 as (c & E1 & E2).
      injection E2 as <-. cbn. repeat split. apply unwrapped_new. exact E1.
  Qed.

  (** The page shows a truthful record of a session with a new context. *)
  Definition truthful_page (m : home) : Prop :=
    exists c0 commands answers,
      new_context cfg fuel = Ok c0
      /\ h_history m = transcript commands answers
      /\ run_session cfg fuel commands c0 = Ok (answers, h_context m).

  Lemma default_truthful m : default_home cfg fuel = Ok m -> truthful_page m.
  Proof.
    unfold default_home. intros E. apply obind_ok in E. destruct E as (c & E1 & E2).
    injection E2 as <-. exists c, [], []. repeat split. apply unwrapped_new. exact E1.
  Qed.
  Lemma update_truthful area x m m' later :
    page_update cfg fuel area x m = Ok (m', later) -> truthful_page m -> truthful_page m'.
  Proof.
    intros E (c0 & cs & rs & N & H & R). destruct (starts x) eqn:S.
    - destruct (starts_afresh _ _ _ _ _ E S) as (H' & N' & _).
      exists (h_context m'), [], []. repeat split; [exact N'|exact H'].
    - assert (D : x = Submit \/ x <> Submit) by (destruct x; (left; reflexivity) || (right; discriminate)).
      destruct D as [->|D].
      + apply submit_appends in E. destruct E as (a & E & H' & _).
        exists c0, (cs ++ [h_input m]), (rs ++ [a]). repeat split.
        * exact N.
        * rewrite transcript_app by (eapply session_length; exact R). rewrite H', H. reflexivity.
        * eapply session_snoc; [exact R|exact E].
      + destruct (others_keep _ _ _ _ _ E D S) as (H' & C'). exists c0, cs, rs.
        rewrite H', C'. repeat split; assumption.
  Qed.
  Lemma updates_truthful l m m' :
    page_updates cfg fuel l m = Ok m' -> truthful_page m -> truthful_page m'.
  Proof.
    revert m. induction l as [|[area x] l IH]; cbn; intros m E T.
    - injection E as <-. exact T.
    - apply obind_ok in E. destruct E as ([m1 later] & E1 & E2).
      eapply IH; [exact E2|]. eapply update_truthful; [exact E1|exact T].
  Qed.

  (** A visit is a sequence of messages. *)
  Lemma act_updates a m m' p :
    act cfg fuel a m = Ok (m', p) -> exists l, page_updates cfg fuel l m = Ok m'.
  Proof.
    unfold act. intros E. apply obind_ok in E. destruct E as (p0 & _ & E).
    destruct (message_of p0 a) as [x|].
    - apply obind_ok in E. destruct E as ([m1 later] & E1 & E).
      apply obind_ok in E. destruct E as (p1 & _ & E). destruct later as [s|].
      + apply obind_ok in E. destruct E as ([m2 later] & E2 & E).
        apply obind_ok in E. destruct E as (p2 & _ & E). injection E as <- <-.
        exists [(true, x); (true, SetCommandInput s)]. cbn [page_updates]. rewrite E1. cbn [obind].
        rewrite E2. reflexivity.
      + injection E as <- <-. exists [(true, x)]. cbn [page_updates]. rewrite E1. reflexivity.
    - injection E as <- <-. exists []. reflexivity.
  Qed.
  Lemma visit_truthful l m m' :
    visit cfg fuel l m = Ok m' -> truthful_page m -> truthful_page m'.
  Proof.
    revert m. induction l as [|a l IH]; cbn [visit]; intros m E T.
    - injection E as <-. exact T.
    - apply obind_ok in E. destruct E as ([m1 p] & E1 & E2). eapply IH; [exact E2|].
      apply act_updates in E1. destruct E1 as (ms & E1). eapply updates_truthful; eassumption.
  Qed.

  (** ** Tutorials *)
  Lemma shows_explanation m : shows_a_step m <-> exists x, draw_explanation m = Ok x.
  Proof.
    unfold shows_a_step, draw_explanation, step_at.
    destruct (h_tutorial m) as [[steps i []]|]; cbn.
    - split; [intros _; eexists; reflexivity|intros _ E; discriminate E].
    - split.
      + intros H. specialize (H eq_refl). destruct (nth_error steps i) eqn:E.
        * eexists. reflexivity.
        * apply nth_error_None in E. lia.
      + intros (x & E) _. apply nth_error_Some. destruct (nth_error steps i); [discriminate|].
        discriminate E.
    - split; [intros _; eexists; reflexivity|auto].
  Qed.

  Lemma step_at_in steps i s : step_at steps i = Ok s -> i < List.length steps.
  Proof.
    unfold step_at. intros E. apply nth_error_Some. destruct (nth_error steps i); [discriminate|].
    discriminate E.
  Qed.

  Lemma update_shows area x m m' later :
    page_update cfg fuel area x m = Ok (m', later) -> shows_a_step m ->
    shows_a_step m'
    \/ (x = Submit /\ exists steps i,
          h_tutorial m = Some (TutorialModel steps i false)
          /\ S i = List.length steps
          /\ execute cfg fuel (h_input m) (h_context m) = Ok ([], h_context m')).
  Proof.
    intros E H. destruct x; cbn in E.
    - injection E as <- <-. left. exact H.
    - injection E as <- <-. left. exact H.
    - apply obind_ok in E. destruct E as ([r c] & E1 & E2).
      unfold shows_a_step in H |- *.
      destruct (h_tutorial m) as [[steps i b]|] eqn:T.
      + destruct r as [|y r]; injection E2 as <- <-; cbn in *.
        * destruct b; [left; intros K; discriminate K|]. specialize (H eq_refl).
          destruct (Nat.eq_dec (S i) (List.length steps)) as [K|K]; [right|left; intros _; lia].
          split; [reflexivity|]. exists steps, i. repeat split; assumption.
        * left. intros K. discriminate K.
      + injection E2 as <- <-. left. cbn. exact I.
    - apply obind_ok in E. destruct E as (m1 & E1 & E2). injection E2 as <- <-.
      unfold reset in E1. apply obind_ok in E1. destruct E1 as (c & E1 & E2).
      injection E2 as <-. left. exact H.
    - apply obind_ok in E. destruct E as (m1 & E1 & E2).
      apply obind_ok in E2. destruct E2 as (s & Es & E2). injection E2 as <- <-.
      left. intros _. cbn. eapply step_at_in. exact Es.
    - left. destruct area; injection E as <- <-; exact H.
    - apply obind_ok in E. destruct E as (s & Es & E). injection E as <- <-.
      left. intros _. cbn. eapply step_at_in. exact Es.
  Qed.

  (** The button for the next step leads to a step. *)
  Lemma next_button_works m p steps i :
    draw cfg fuel m = Ok p -> pg_explanation p = NextButton steps i ->
    exists m' s, page_update cfg fuel true (SkipToTutorialStep steps i) m = Ok (m', Some (txt s))
                 /\ on_a_step m' /\ h_history m' = h_history m.
  Proof.
    intros E H. unfold draw in E. apply obind_ok in E. destruct E as (x & E1 & E2).
    apply obind_ok in E2. destruct E2 as (ls & _ & E2). injection E2 as <-. cbn in H. subst x.
    unfold draw_explanation in E1. destruct (h_tutorial m) as [[st j []]|]; try discriminate E1.
    - destruct (Nat.ltb (S j) (List.length st)) eqn:L; [|discriminate E1].
      injection E1 as <- <-. apply Nat.ltb_lt in L. cbn [page_update]. unfold step_at.
      destruct (nth_error st (S j)) as [s|] eqn:N.
      + eexists. exists (step_command s). cbn [obind]. split; [reflexivity|].
        split; [exact L|reflexivity].
      + apply nth_error_None in N. lia.
    - apply obind_ok in E1. destruct E1 as (s & _ & E1). discriminate E1.
  Qed.
End Facts.
