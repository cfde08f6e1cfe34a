(** The interactive page: its history (C45), its tutorials (C46) and its fresh start (C47). *)
From Verif Require Import WebUi WebFacts Start.
From Coq Require Import String List Lia.
Import ListNotations.
Local Open Scope string_scope.

(** ** C45 *)
(** Submitting shows the command and then its answer below everything shown before, and
    empties the input. *)
Theorem C45_submitting_appends_command_and_answer : forall cfg fuel area m m' later,
  page_update cfg fuel area Submit m = Ok (m', later) ->
  exists answer,
    execute cfg fuel (h_input m) (h_context m) = Ok (answer, h_context m')
    /\ h_history m' = (h_history m ++ transcript [h_input m] [answer])%list
    /\ h_input m' = []
    /\ h_menu_open m' = h_menu_open m.
Proof. exact submit_appends. Qed.
Print Assumptions C45_submitting_appends_command_and_answer.

(** Every other message leaves the history and the knowledge alone or starts afresh. *)
Theorem C45_other_messages_keep_or_clear_the_history : forall cfg fuel area x m m' later,
  page_update cfg fuel area x m = Ok (m', later) -> x <> Submit ->
  if starts x
  then h_history m' = [] /\ new_context cfg fuel = Ok (h_context m') /\ h_menu_open m' = false
  else h_history m' = h_history m /\ h_context m' = h_context m.
Proof.
  intros cfg fuel area x m m' later E N. destruct (starts x) eqn:S.
  - exact (starts_afresh cfg fuel area x m m' later E S).
  - exact (others_keep cfg fuel area x m m' later E N S).
Qed.
Print Assumptions C45_other_messages_keep_or_clear_the_history.

(** After any messages the history is the record of a session with a new context: each
    command followed by the answer that a context gives after the commands above it. *)
Theorem C45_history_is_a_true_record : forall cfg fuel messages m0 m,
  default_home cfg fuel = Ok m0 -> page_updates cfg fuel messages m0 = Ok m ->
  exists c0 commands answers,
    new_context cfg fuel = Ok c0
    /\ h_history m = transcript commands answers
    /\ run_session cfg fuel commands c0 = Ok (answers, h_context m).
Proof.
  intros cfg fuel l m0 m D E. eapply updates_truthful; [exact E|].
  eapply default_truthful. exact D.
Qed.
Print Assumptions C45_history_is_a_true_record.

(** The same for a visitor who acts on what the page shows. *)
Theorem C45_visitors_see_a_true_record : forall cfg fuel actions m0 m,
  default_home cfg fuel = Ok m0 -> visit cfg fuel actions m0 = Ok m ->
  exists c0 commands answers,
    new_context cfg fuel = Ok c0
    /\ h_history m = transcript commands answers
    /\ run_session cfg fuel commands c0 = Ok (answers, h_context m).
Proof.
  intros cfg fuel l m0 m D E. eapply visit_truthful; [exact E|].
  eapply default_truthful. exact D.
Qed.
Print Assumptions C45_visitors_see_a_true_record.

Definition home0 : home := Home context0 [] [] true None.
Lemma home0_eq : default_home cfg0 fuel0 = Ok home0.
Proof.
  unfold default_home. rewrite (proj2 (unwrapped_new cfg0 fuel0 context0) context0_eq).
  reflexivity.
Qed.

(** What is shown, as plain strings *)
Definition shown (o : outcome home) : list string + string :=
  match o with
  | Ok m => inl (map (fun e => show (en_value e)) (h_history m))
  | Panic s => inr s
  | _ => inr "none"
  end.
Example C45_example :
  shown (visit cfg0 fuel0
           [Type_ (txt "let a -> b"); PressEnter; ClickMenu; Type_ (txt "a"); PressEnter] home0)
  = inl ["let a -> b"; ""; "a"; "b"].
Proof. vm_compute. reflexivity. Qed.

(** ** C46 *)
(** A message makes the page impossible to draw in one way only: a command with an empty
    answer is submitted while the last step of a tutorial is explained.  This is less than
    C46, which is false, see below. *)
Theorem C46_only_the_last_step_can_break_the_page_partial : forall cfg fuel area x m m' later,
  page_update cfg fuel area x m = Ok (m', later) -> shows_a_step m ->
  shows_a_step m'
  \/ (x = Submit /\ exists steps i,
        h_tutorial m = Some (TutorialModel steps i false)
        /\ S i = List.length steps
        /\ execute cfg fuel (h_input m) (h_context m) = Ok ([], h_context m')).
Proof. exact update_shows. Qed.
Print Assumptions C46_only_the_last_step_can_break_the_page_partial.

(** The explanation can be drawn exactly if the explained step is a step of the tutorial. *)
Theorem C46_drawing_needs_a_step_partial : forall m,
  shows_a_step m <-> exists x, draw_explanation m = Ok x.
Proof. exact shows_explanation. Qed.
Print Assumptions C46_drawing_needs_a_step_partial.

(** The button for the next step always leads to a step. *)
Theorem C46_next_button_leads_to_a_step_partial : forall cfg fuel m p steps i,
  draw cfg fuel m = Ok p -> pg_explanation p = NextButton steps i ->
  exists m' s, page_update cfg fuel true (SkipToTutorialStep steps i) m = Ok (m', Some (txt s))
               /\ on_a_step m' /\ h_history m' = h_history m.
Proof. exact next_button_works. Qed.
Print Assumptions C46_next_button_leads_to_a_step_partial.

(** The visitor opens the second tutorial, presses enter on an empty line and then the
    button for the next step, nine times; on the last step they declare something of their
    own.  The page then cannot be drawn: the step after the last is looked up. *)
Definition leaving_the_tutorial : list action :=
  (ClickTutorial 1 :: concat (repeat [Type_ []; PressEnter; ClickNext] 9)
   ++ [Type_ (txt "let a -> b"); PressEnter])%list.
Theorem C46_tutorial_runs_off_its_end_refuted :
  exists actions m0, default_home cfg0 fuel0 = Ok m0
    /\ visit cfg0 fuel0 actions m0 = Panic "steps: index out of bounds".
Proof.
  exists leaving_the_tutorial, home0. split; [exact home0_eq|]. vm_compute. reflexivity.
Qed.
Print Assumptions C46_tutorial_runs_off_its_end_refuted.

(** The hypotheses of the first theorem hold in the middle of a tutorial. *)
Definition mid_tutorial : home :=
  Home context0 (txt "let a -> b") [] false (Some (TutorialModel relationships_tutorial 3 false)).
Example C46_example :
  shows_a_step mid_tutorial
  /\ match page_update cfg0 fuel0 true Submit mid_tutorial with
     | Ok (m, Some s) => h_tutorial m = Some (TutorialModel relationships_tutorial 4 false)
                         /\ s = txt (step_command (nth 4 relationships_tutorial
                                                     (TutorialStep "" "" "")))
     | _ => False
     end.
Proof. split; [intros _; cbn; lia|]. vm_compute. split; reflexivity. Qed.

(** ** C47 *)
(** Starting an empty session gives a new context, an empty history and a closed menu. *)
Theorem C47_empty_session_clears_knowledge_partial : forall cfg fuel area m m' later,
  page_update cfg fuel area StartEmptySession m = Ok (m', later) ->
  h_history m' = [] /\ new_context cfg fuel = Ok (h_context m') /\ h_menu_open m' = false.
Proof.
  intros cfg fuel area m m' later E.
  exact (starts_afresh cfg fuel area StartEmptySession m m' later E eq_refl).
Qed.
Print Assumptions C47_empty_session_clears_knowledge_partial.

(** But a tutorial that was active stays active, and the text in the input stays. *)
Theorem C47_empty_session_keeps_the_tutorial_refuted :
  exists m m', page_update cfg0 fuel0 true StartEmptySession m = Ok (m', None)
    /\ h_tutorial m' <> None /\ h_input m' <> [].
Proof.
  exists mid_tutorial, (Home context0 (h_input mid_tutorial) [] false (h_tutorial mid_tutorial)).
  split; [|split; discriminate].
  unfold page_update, reset. rewrite (proj2 (unwrapped_new cfg0 fuel0 context0) context0_eq).
  reflexivity.
Qed.
Print Assumptions C47_empty_session_keeps_the_tutorial_refuted.
