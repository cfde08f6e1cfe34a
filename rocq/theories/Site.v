(** The web site around the interactive page: its addresses and its two pages
    (zia-lang.org/crate/src/lib.rs, page/not_found.rs, page/partial/header.rs). *)
From Verif Require Export WebUi.
From Coq Require Import String List.
Import ListNotations.
Set Implicit Arguments.

(** zia-lang.org/crate/src/lib.rs:32-36 ([Page]; the name [Page] is taken by what the
    interactive page shows) *)
Inductive place := AtHome | AtNotFound.
(** The parts of the path of an address: what [Url::path] of the [seed] framework, which is
    not part of /repo, returns.  Simplification: the query and the hash of an address have
    no counterpart, since zia-lang.org/crate/src/lib.rs:50 looks at the path only. *)
Definition address := list text.
(** zia-lang.org/crate/src/lib.rs:38-46 ([Page::to_href]), as the parts of the path *)
Definition home_address : address := [].
(** zia-lang.org/crate/src/lib.rs:18 and 48-57: the page at an address and the title that
    the browser's window then carries *)
Definition place_at (a : address) : place * text :=
  match a with
  | [] => (AtHome, txt "Zia")
  | [] :: _ => (AtHome, txt "Zia")
  | (_ :: _) :: _ => (AtNotFound, txt "404 - Zia")
  end.

(** zia-lang.org/crate/src/lib.rs:25-28, with the title of the window, which
    [document().set_title] changes at line 54 *)
Record site := Site { st_place : place; st_title : text; st_home : home }.
(** zia-lang.org/crate/src/lib.rs:82-85 *)
Inductive site_msg :=
| UrlChanged (a : address)
| ForHome (x : msg).

Section Site.
  Variable cfg : config.
  Variable fuel : nat.

  (** Whether the text area exists.  Only the home page draws it:
      zia-lang.org/crate/src/lib.rs:118-121, page/home/command_input.rs:117-185 *)
  Definition has_area (s : site) : bool :=
    match st_place s with AtHome => true | AtNotFound => false end.

  (** zia-lang.org/crate/src/lib.rs:63-72.  The second component is the text of the
      [SetCommandInput] ordered for after the first drawing. *)
  Definition site_init (a : address) : outcome (site * option text) :=
    obind (default_home cfg fuel) (fun m =>
    let '(p, t) := place_at a in Ok (Site p t m, Some [])).
  (** zia-lang.org/crate/src/lib.rs:87-94 *)
  Definition site_update (x : site_msg) (s : site) : outcome (site * option text) :=
    match x with
    | UrlChanged a => let '(p, t) := place_at a in Ok (Site p t (st_home s), None)
    | ForHome x =>
      obind (page_update cfg fuel (has_area s) x (st_home s)) (fun '(m, later) =>
      Ok (Site (st_place s) (st_title s) m, later))
    end.

  (** What the window shows besides the logo: zia-lang.org/crate/src/lib.rs:107-124,
      page/not_found.rs:4-52.  Simplification: the page that was not found shows one fixed
      text and a drawing. *)
  Inductive shown :=
  | ShownHome (p : page)
  | ShownNotFound.
  Definition site_draw (s : site) : outcome shown :=
    match st_place s with
    | AtHome => obind (draw cfg fuel (st_home s)) (fun p => Ok (ShownHome p))
    | AtNotFound => Ok ShownNotFound
    end.

  (** What a visitor of the site can do: act on the page, click on the logo, or go to an
      address, be it by typing, by a link or with the browser's buttons. *)
  Inductive site_action :=
  | OnPage (a : action)
  | ClickLogo
  | GoTo (a : address).
  (** The messages an action sends.  The logo is on both pages and is a link to the home
      page that also toggles the menu (page/partial/header.rs:16-28).  Nothing else can be
      acted on when the page was not found (page/not_found.rs:4-52).  [seed] turns the click
      on a link into a message [UrlChanged] of its own; [seed] not being part of /repo, the
      order of the two messages is a parameter. *)
  Definition site_messages (url_first : bool) (v : shown) (a : site_action) : list site_msg :=
    match a with
    | GoTo u => [UrlChanged u]
    | ClickLogo =>
      if url_first then [UrlChanged home_address; ForHome ToggleMenu]
      else [ForHome ToggleMenu; UrlChanged home_address]
    | OnPage ClickMenu => []
    | OnPage a =>
      match v with
      | ShownHome p =>
        match message_of p a with Some x => [ForHome x] | None => [] end
      | ShownNotFound => []
      end
    end.
  (** Handling one message: it is handled, the window drawn, and then the ordered
      [SetCommandInput] is handled and the window drawn again, as in [act] (WebUi.v). *)
  Definition finish (r : site * option text) : outcome site :=
    let '(s, later) := r in
    obind (site_draw s) (fun _ =>
    match later with
    | None => Ok s
    | Some t =>
      obind (site_update (ForHome (SetCommandInput t)) s) (fun '(s, _) =>
      obind (site_draw s) (fun _ => Ok s))
    end).
  Fixpoint handle (l : list site_msg) (s : site) : outcome site :=
    match l with
    | [] => Ok s
    | x :: l =>
      obind (site_update x s) (fun r => obind (finish r) (fun s => handle l s))
    end.
  Definition site_act (url_first : bool) (a : site_action) (s : site) : outcome site :=
    obind (site_draw s) (fun v => handle (site_messages url_first v a) s).
  Fixpoint browse (url_first : bool) (l : list site_action) (s : site) : outcome site :=
    match l with
    | [] => Ok s
    | a :: l => obind (site_act url_first a s) (fun s => browse url_first l s)
    end.
  (** Opening the site at an address: zia-lang.org/crate/src/lib.rs:135-142 *)
  Definition open_site (a : address) : outcome site := obind (site_init a) finish.

  (** *** What follows is used in statements only *)
  (** The actions of a visit to the site that reach the interactive page, for a visitor who
      starts at [p]: those done while the home page is shown, and every click on the logo. *)
  Fixpoint reaching (p : place) (l : list site_action) : list action :=
    match l with
    | [] => []
    | GoTo u :: l => reaching (fst (place_at u)) l
    | ClickLogo :: l => ClickMenu :: reaching AtHome l
    | OnPage ClickMenu :: l => reaching p l
    | OnPage a :: l =>
      match p with AtHome => a :: reaching p l | AtNotFound => reaching p l end
    end.
  (** Where such a visitor ends *)
  Fixpoint ending (p : place) (l : list site_action) : place :=
    match l with
    | [] => p
    | GoTo u :: l => ending (fst (place_at u)) l
    | ClickLogo :: l => ending AtHome l
    | OnPage _ :: l => ending p l
    end.
End Site.
