(** The interactive page (zia-lang.org/crate/src/page/home). *)
From Verif Require Export Context Tutorials.
From Coq Require Import String List.
Import ListNotations.
Set Implicit Arguments.

(** zia-lang.org/crate/src/page/home/tutorials.rs:262-266 *)
Record tutorial_model := TutorialModel
  { tm_steps : list tutorial_step; tm_index : nat; tm_showing : bool }.
(** zia-lang.org/crate/src/page/home/mod.rs:48-56 *)
Inductive entry_kind := EkCommand | EkEvaluation.
Record entry := Entry { en_kind : entry_kind; en_value : text }.
(** zia-lang.org/crate/src/page/home/mod.rs:16-24 and menu.rs:10-20.  Simplification: the
    two references to page elements are left out; whether the text area exists is told to
    [page_update] by the caller. *)
Record home := Home
  { h_context : ctx; h_input : text; h_history : list entry; h_menu_open : bool;
    h_tutorial : option tutorial_model }.
(** zia-lang.org/crate/src/page/home/mod.rs:59-70 *)
Inductive msg :=
| ToggleMenu
| Input (s : text)
| Submit
| StartEmptySession
| StartTutorial (steps : list tutorial_step)
| SetCommandInput (s : text)
| SkipToTutorialStep (steps : list tutorial_step) (current : nat).

Section WebUi.
  Variable cfg : config.
  Variable fuel : nat.

  (** [Context::new().unwrap()], used at zia-lang.org/crate/src/page/home/mod.rs:29 and 42 *)
  Definition unwrapped_context : outcome ctx :=
    match new_context cfg fuel with
    | Err _ => Panic "Context::new: unwrap"
    | o => o
    end.
  (** zia-lang.org/crate/src/page/home/mod.rs:26-38, menu.rs:14-20 *)
  Definition default_home : outcome home :=
    obind unwrapped_context (fun c => Ok (Home c [] [] true None)).
  (** zia-lang.org/crate/src/page/home/mod.rs:40-46 *)
  Definition reset (m : home) : outcome home :=
    obind unwrapped_context (fun c => Ok (Home c (h_input m) [] false (h_tutorial m))).
  (** [steps[i].command], with Rust's check of the index *)
  Definition step_at (steps : list tutorial_step) (i : nat) : outcome tutorial_step :=
    match nth_error steps i with
    | Some s => Ok s
    | None => Panic "steps: index out of bounds"
    end.

  (** zia-lang.org/crate/src/page/home/mod.rs:72-174.  The second component is the text of
      the [SetCommandInput] ordered for after the next drawing, if any.  [area] tells
      whether the text area exists.  Simplification: focus and scrolling have no counterpart
      (lines 99, 101-112), and the message on the console (lines 113-118) is left out. *)
  Definition page_update (area : bool) (x : msg) (m : home) : outcome (home * option text) :=
    match x with
    | ToggleMenu =>
      Ok (Home (h_context m) (h_input m) (h_history m) (negb (h_menu_open m)) (h_tutorial m),
          None)
    | SkipToTutorialStep steps current =>
      let next := S current in
      obind (step_at steps next) (fun s =>
      Ok (Home (h_context m) (h_input m) (h_history m) (h_menu_open m)
            (Some (TutorialModel steps next false)),
          Some (txt (step_command s))))
    | SetCommandInput s =>
      if area then
        Ok (Home (h_context m) s (h_history m) (h_menu_open m) (h_tutorial m), None)
      else Ok (m, None)
    | Input s => Ok (Home (h_context m) s (h_history m) (h_menu_open m) (h_tutorial m), None)
    | StartEmptySession => obind (reset m) (fun m => Ok (m, None))
    | StartTutorial steps =>
      obind (reset m) (fun m =>
      obind (step_at steps 0) (fun s =>
      Ok (Home (h_context m) (h_input m) (h_history m) (h_menu_open m)
            (Some (TutorialModel steps 0 false)),
          Some (txt (step_command s)))))
    | Submit =>
      obind (execute cfg fuel (h_input m) (h_context m)) (fun '(output, c) =>
      let '(tutorial, new_input) :=
        match h_tutorial m with
        | Some (TutorialModel steps i showing) =>
          match output with
          | [] =>
            (Some (TutorialModel steps (S i) showing),
             match nth_error steps (S i) with
             | Some s => txt (step_command s)
             | None => []
             end)
          | _ :: _ => (Some (TutorialModel steps i true), [])
          end
        | None => (None, [])
        end in
      Ok (Home c []
            (h_history m ++ [Entry EkCommand (h_input m); Entry EkEvaluation output])
            (h_menu_open m) tutorial,
          Some new_input))
    end.

  (** What stands above the text area:
      zia-lang.org/crate/src/page/home/command_input.rs:32-61 *)
  Inductive explanation :=
  | Explained (t : string)
  | NextButton (steps : list tutorial_step) (current : nat)
  | Unexplained.
  Definition draw_explanation (m : home) : outcome explanation :=
    match h_tutorial m with
    | Some (TutorialModel steps i false) =>
      obind (step_at steps i) (fun s => Ok (Explained (step_explanation s)))
    | Some (TutorialModel steps i true) =>
      Ok (if Nat.ltb (S i) (List.length steps) then NextButton steps i else Unexplained)
    | None => Ok Unexplained
    end.
  (** The colour of a lexeme: zia-lang.org/crate/src/page/home/command_input.rs:86-106 *)
  Inductive colour := NewConcept | VariableConcept | ConcreteConcept | AbstractConcept
                    | UnmatchedParenthesis.
  Definition colour_of (k : category) : option colour :=
    match k with
    | CatConcept KNew => Some NewConcept
    | CatConcept KVariable => Some VariableConcept
    | CatConcept (KConcrete _ _) => Some ConcreteConcept
    | CatConcept (KAbstract _) => Some AbstractConcept
    | CatOpen None | CatClose None => Some UnmatchedParenthesis
    | _ => None
    end.
  (** The page: zia-lang.org/crate/src/page/home/mod.rs:181-189, history.rs:5-30,
      command_input.rs:12-115.  Simplification: only what depends on the model, not the
      layout.  The menu shows the buttons of menu.rs:22-80 when it is open. *)
  Record page := Page
    { pg_history : list entry; pg_explanation : explanation;
      pg_spans : list (option colour * text); pg_menu : bool }.
  Definition draw (m : home) : outcome page :=
    obind (draw_explanation m) (fun x =>
    obind (lex (kind_of_symbol cfg fuel (h_context m)) (h_input m)) (fun ls =>
    Ok (Page (h_history m) x
          (map (fun l => (colour_of (lx_cat l), lx_text l)) ls) (h_menu_open m)))).

  (** What a visitor can do.  The buttons exist only where the page shows them, see [message_of]. *)
  Inductive action :=
  | Type_ (s : text)
  | PressEnter
  | ClickMenu
  | ClickEmptySession
  | ClickTutorial (n : nat)
  | ClickNext.
  (** zia-lang.org/crate/src/page/home/menu.rs:57-62: the tutorials offered *)
  Definition tutorials : list (list tutorial_step) :=
    [factorial_tutorial; relationships_tutorial; arrays_tutorial].
  (** The message that an action sends, if the page offers that action:
      zia-lang.org/crate/src/page/home/command_input.rs:44-55 and 162-168, menu.rs:22-99,
      page/partial/header.rs:16-28 (the menu button is always there) *)
  Definition message_of (p : page) (a : action) : option msg :=
    match a with
    | Type_ s => Some (Input s)
    | PressEnter => Some Submit
    | ClickMenu => Some ToggleMenu
    | ClickEmptySession => if pg_menu p then Some StartEmptySession else None
    | ClickTutorial n =>
      if pg_menu p then option_map StartTutorial (nth_error tutorials n) else None
    | ClickNext =>
      match pg_explanation p with
      | NextButton steps i => Some (SkipToTutorialStep steps i)
      | _ => None
      end
    end.
  (** Handling one action: the message is handled, the page drawn, and then the ordered
      [SetCommandInput] is handled and the page drawn again.  This is the documented
      behaviour of [after_next_render] in the [seed] framework, which is not part of /repo.
      An action that the page does not offer does nothing.  Simplification: the address of
      the page does not change (zia-lang.org/crate/src/lib.rs:87-94), so the text area is
      there. *)
  Definition act (a : action) (m : home) : outcome (home * page) :=
    obind (draw m) (fun p =>
    match message_of p a with
    | None => Ok (m, p)
    | Some x =>
      obind (page_update true x m) (fun '(m, later) =>
      obind (draw m) (fun p =>
      match later with
      | None => Ok (m, p)
      | Some s =>
        obind (page_update true (SetCommandInput s) m) (fun '(m, _) =>
        obind (draw m) (fun p => Ok (m, p)))
      end))
    end).
  Fixpoint visit (l : list action) (m : home) : outcome home :=
    match l with
    | [] => Ok m
    | a :: l => obind (act a m) (fun '(m, _) => visit l m)
    end.
  (** Handling messages without drawing, for statements about all message sequences *)
  Fixpoint page_updates (l : list (bool * msg)) (m : home) : outcome home :=
    match l with
    | [] => Ok m
    | (area, x) :: l => obind (page_update area x m) (fun '(m, _) => page_updates l m)
    end.
End WebUi.
