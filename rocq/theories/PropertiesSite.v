(** The web site: addresses, titles and the interactive page behind them (C61). *)
From Verif Require Import WebUi WebFacts Site SiteFacts Start.
From Coq Require Import String List.
Import ListNotations.
Local Open Scope string_scope.

(** ** C61 *)
(** The home page is shown at the addresses without a path and nowhere else. *)
Theorem C61_addresses_of_the_home_page : forall a,
  fst (place_at a) = AtHome <-> a = [] \/ exists rest, a = [] :: rest.
Proof. exact home_places. Qed.
Print Assumptions C61_addresses_of_the_home_page.
Theorem C61_other_addresses_are_not_found : forall first rest n,
  place_at ((n :: first) :: rest) = (AtNotFound, txt "404 - Zia").
Proof. reflexivity. Qed.
Print Assumptions C61_other_addresses_are_not_found.

(** A change of the address touches nothing of the interactive page, and no message of the
    interactive page touches the address or the title. *)
Theorem C61_addresses_and_the_page_are_independent : forall cfg fuel x s s' later,
  site_update cfg fuel x s = Ok (s', later) ->
  match x with
  | UrlChanged a =>
    st_home s' = st_home s /\ (st_place s', st_title s') = place_at a /\ later = None
  | ForHome x =>
    st_place s' = st_place s /\ st_title s' = st_title s
    /\ page_update cfg fuel (has_area s) x (st_home s) = Ok (st_home s', later)
  end.
Proof.
  intros cfg fuel [a|x] s s' later E.
  - exact (going_home_model cfg fuel a s E).
  - exact (messages_place cfg fuel x s E).
Qed.
Print Assumptions C61_addresses_and_the_page_are_independent.

(** A visit to the site, whatever addresses it leads through and in whichever order a click
    on the logo sends its two messages, is the visit to the interactive page with the actions
    that reach it.  It ends, panics or runs out of fuel alike, with the same session, and the
    window shows the page and the title of the last address. *)
Theorem C61_a_visit_to_the_site_is_a_visit_to_the_page : forall cfg fuel url_first a actions,
  obind (open_site cfg fuel a) (browse cfg fuel url_first actions)
  = obind (default_home cfg fuel) (fun m =>
    obind (visit cfg fuel (reaching (fst (place_at a)) actions) m) (fun m' =>
    let p := ending (fst (place_at a)) actions in Ok (Site p (title_of p) m'))).
Proof. exact browsing_opened. Qed.
Print Assumptions C61_a_visit_to_the_site_is_a_visit_to_the_page.

(** The history stays a true record of one session, wherever the visitor goes. *)
Theorem C61_wandering_visitors_see_a_true_record : forall cfg fuel url_first a actions s s',
  open_site cfg fuel a = Ok s -> browse cfg fuel url_first actions s = Ok s' ->
  exists c0 commands answers,
    new_context cfg fuel = Ok c0
    /\ h_history (st_home s') = transcript commands answers
    /\ run_session cfg fuel commands c0 = Ok (answers, h_context (st_home s')).
Proof.
  intros cfg fuel b a l s s' O B.
  assert (T := browsing_opened cfg fuel b a l). rewrite O in T. cbn [obind] in T.
  rewrite B in T. symmetry in T. apply StoreFacts.obind_ok in T as (m & D & T).
  apply StoreFacts.obind_ok in T as (m' & V & T). injection T as <-. cbn [st_home].
  eapply visit_truthful; [exact V|]. eapply default_truthful. exact D.
Qed.
Print Assumptions C61_wandering_visitors_see_a_true_record.

(** The logo leads home from anywhere, and always turns the menu over: a visitor who opened
    an unknown address and clicks on the logo finds the menu, open until then, closed. *)
Theorem C61_the_logo_leads_home_and_turns_the_menu_over : forall cfg fuel url_first p t m,
  drawable cfg fuel m ->
  site_act cfg fuel url_first ClickLogo (Site p t m)
  = Ok (Site AtHome (txt "Zia")
         (Home (h_context m) (h_input m) (h_history m) (negb (h_menu_open m)) (h_tutorial m))).
Proof. intros cfg fuel b p t m D. exact (logo b p t D). Qed.
Print Assumptions C61_the_logo_leads_home_and_turns_the_menu_over.

(** Non-trivial cases *)
Example C61_places :
  map place_at [[]; [txt ""]; [txt ""; txt "404"]; [txt "404"]; [txt "home"; txt ""]]
  = [(AtHome, txt "Zia"); (AtHome, txt "Zia"); (AtHome, txt "Zia");
     (AtNotFound, txt "404 - Zia"); (AtNotFound, txt "404 - Zia")].
Proof. reflexivity. Qed.
Definition blank_home : home := Home default_ctx [] [] true None.
Example C61_blank_home_is_drawn : drawable cfg0 fuel0 blank_home.
Proof. eexists. reflexivity. Qed.
Definition wandering : list site_action :=
  [OnPage (Type_ (txt "a")); GoTo [txt "b"]; OnPage (Type_ (txt "lost")); OnPage PressEnter;
   OnPage ClickEmptySession; GoTo []; OnPage (Type_ (txt "(")); GoTo [txt "404"]; ClickLogo].
Example C61_what_reaches_the_page :
  reaching AtHome wandering = [Type_ (txt "a"); Type_ (txt "("); ClickMenu].
Proof. reflexivity. Qed.
Example C61_where_it_ends :
  browse cfg0 fuel0 true wandering (Site AtHome (txt "Zia") blank_home)
  = Ok (Site AtHome (txt "Zia") (Home default_ctx (txt "(") [] false None))
  /\ browse cfg0 fuel0 false wandering (Site AtHome (txt "Zia") blank_home)
  = Ok (Site AtHome (txt "Zia") (Home default_ctx (txt "(") [] false None)).
Proof. split; vm_compute; reflexivity. Qed.
Example C61_a_message_elsewhere_is_ignored :
  site_update cfg0 fuel0 (ForHome (SetCommandInput (txt "a")))
    (Site AtNotFound (txt "404 - Zia") blank_home)
  = Ok (Site AtNotFound (txt "404 - Zia") blank_home, None).
Proof. reflexivity. Qed.
(** The site opens, here at an unknown address, and one click later its menu is closed. *)
Example C61_the_site_opens : forall url_first,
  obind (open_site cfg0 fuel0 [txt "lost"]) (browse cfg0 fuel0 url_first [ClickLogo])
  = Ok (Site AtHome (txt "Zia") (Home context0 [] [] false None)).
Proof.
  intros b. assert (D : default_home cfg0 fuel0 = Ok (Home context0 [] [] true None)).
  { unfold default_home, unwrapped_context. rewrite context0_eq. reflexivity. }
  rewrite opening, D. cbn [obind browse place_at fst txt].
  assert (W : drawable cfg0 fuel0 (Home context0 [] [] true None)) by exact (default_drawable _ _ D).
  rewrite (logo b _ _ W). reflexivity.
Qed.
