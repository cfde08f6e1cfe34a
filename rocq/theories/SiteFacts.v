(** Lemmas about the web site: visiting it is visiting the interactive page. *)
From Verif Require Import WebUi WebFacts StoreFacts Site.
From Coq Require Import String List.
Import ListNotations.
Set Implicit Arguments.

Section SiteFacts.
  Variable cfg : config.
  Variable fuel : nat.

  Lemma home_places : forall a,
    fst (place_at a) = AtHome <-> a = [] \/ exists rest, a = [] :: rest.
  Proof.
    intros [|[|n t] l]; simpl; split; intros H; auto.
    - right. now exists l.
    - discriminate.
    - destruct H as [H|[r H]]; discriminate.
  Qed.
  (** The title that belongs to a page: zia-lang.org/crate/src/lib.rs:50-53 *)
  Definition title_of (p : place) : text :=
    match p with AtHome => txt "Zia" | AtNotFound => txt "404 - Zia" end.
  Lemma place_title : forall a, place_at a = (fst (place_at a), title_of (fst (place_at a))).
  Proof. now intros [|[|n t] l]. Qed.

  Lemma going_home_model : forall a s s' later,
    site_update cfg fuel (UrlChanged a) s = Ok (s', later) ->
    st_home s' = st_home s /\ (st_place s', st_title s') = place_at a /\ later = None.
  Proof.
    intros a s s' later. unfold site_update. destruct (place_at a) as [p t].
    intros [= <- <-]. auto.
  Qed.
  Lemma messages_place : forall x s s' later,
    site_update cfg fuel (ForHome x) s = Ok (s', later) ->
    st_place s' = st_place s /\ st_title s' = st_title s
    /\ page_update cfg fuel (has_area s) x (st_home s) = Ok (st_home s', later).
  Proof.
    intros x s s' later E. cbn [site_update] in E.
    apply obind_ok in E as ([m l] & E & R). injection R as <- <-. auto.
  Qed.

  (** Drawing succeeds or fails alike whether the menu is open or not. *)
  Definition toggled (m : home) : home :=
    Home (h_context m) (h_input m) (h_history m) (negb (h_menu_open m)) (h_tutorial m).
  Lemma toggled_draw : forall m B (k : outcome B),
    obind (draw cfg fuel (toggled m)) (fun _ => k) = obind (draw cfg fuel m) (fun _ => k).
  Proof.
    intros m B k. unfold draw. simpl.
    change (draw_explanation (toggled m)) with (draw_explanation m).
    destruct (draw_explanation m); try reflexivity. simpl.
    destruct (lex _ _); reflexivity.
  Qed.
  Definition drawable (m : home) : Prop := exists p, draw cfg fuel m = Ok p.
  Lemma toggled_drawable : forall m, drawable (toggled m) <-> drawable m.
  Proof.
    intros m. assert (T := toggled_draw m (Ok (0 : nat))). unfold drawable. split; intros [p E];
      rewrite E in T; simpl in T.
    - symmetry in T. apply obind_ok in T as (q & T & _). now exists q.
    - apply obind_ok in T as (q & T & _). now exists q.
  Qed.

  Lemma obind_assoc : forall A B C (m : outcome A) (f : A -> outcome B) (g : B -> outcome C),
    obind (obind m f) g = obind m (fun x => obind (f x) g).
  Proof. now intros A B C [x|e|p|] f g. Qed.
  Lemma obind_ext : forall A B (m : outcome A) (f g : A -> outcome B),
    (forall x, m = Ok x -> f x = g x) -> obind m f = obind m g.
  Proof. intros A B [x|e|p|] f g H; try reflexivity. now apply H. Qed.

  (** After an action the page has been drawn. *)
  Lemma act_drawable : forall a m m' p, act cfg fuel a m = Ok (m', p) -> drawable m'.
  Proof.
    intros a m m' p E. unfold act in E. apply obind_ok in E as (p0 & D & E).
    destruct (message_of p0 a) as [x|].
    - apply obind_ok in E as ([m1 later] & U & E). apply obind_ok in E as (p1 & D1 & E).
      destruct later as [t|].
      + apply obind_ok in E as ([m2 l2] & U2 & E). apply obind_ok in E as (p2 & D2 & E).
        injection E as <- <-. now exists p2.
      + injection E as <- <-. now exists p1.
    - injection E as <- <-. now exists p0.
  Qed.

  Lemma area_home : forall t m, has_area (Site AtHome t m) = true.
  Proof. reflexivity. Qed.
  (** Acting on the home page *)
  Lemma act_at_home : forall b a t m,
    a <> ClickMenu ->
    site_act cfg fuel b (OnPage a) (Site AtHome t m)
    = obind (act cfg fuel a m) (fun '(m', _) => Ok (Site AtHome t m')).
  Proof.
    intros b a t m N. unfold site_act, act, site_draw. cbn [st_place st_home].
    rewrite !obind_assoc. apply obind_ext. intros p D. cbn [obind].
    assert (M : site_messages b (ShownHome p) (OnPage a)
                = match message_of p a with Some x => [ForHome x] | None => [] end)
      by (destruct a; try reflexivity; now elim N).
    rewrite M. destruct (message_of p a) as [x|]; [|reflexivity].
    cbn [handle site_update st_home st_place st_title]. rewrite area_home.
    rewrite !obind_assoc. apply obind_ext. intros [m1 later] U. cbn [obind finish].
    unfold site_draw. cbn [st_place st_home]. rewrite !obind_assoc.
    apply obind_ext. intros p1 D1. cbn [obind].
    destruct later as [w|]; [|reflexivity].
    cbn [site_update st_home st_place st_title]. rewrite area_home.
    rewrite !obind_assoc. apply obind_ext. intros [m2 l2] U2. cbn [obind st_place st_home].
    rewrite !obind_assoc. apply obind_ext. reflexivity.
  Qed.
  Lemma act_elsewhere : forall b a t m,
    site_act cfg fuel b (OnPage a) (Site AtNotFound t m) = Ok (Site AtNotFound t m).
  Proof. intros b a t m. unfold site_act, site_draw. simpl. now destruct a. Qed.
  Lemma menu_nowhere : forall b p t m,
    drawable m ->
    site_act cfg fuel b (OnPage ClickMenu) (Site p t m) = Ok (Site p t m).
  Proof.
    intros b p t m [v D]. unfold site_act, site_draw. cbn [st_place st_home].
    destruct p; [rewrite D|]; reflexivity.
  Qed.
  Lemma toggling : forall m, drawable m ->
    exists v, act cfg fuel ClickMenu m = Ok (toggled m, v).
  Proof.
    intros m D. destruct (proj2 (toggled_drawable m) D) as [v T]. destruct D as [w D].
    exists v. unfold act. rewrite D. cbn [obind message_of page_update].
    fold (toggled m). rewrite T. reflexivity.
  Qed.
  Lemma logo : forall b p t m,
    drawable m ->
    site_act cfg fuel b ClickLogo (Site p t m) = Ok (Site AtHome (title_of AtHome) (toggled m)).
  Proof.
    intros b p t m D. destruct (proj2 (toggled_drawable m) D) as [v T].
    destruct D as [w D]. unfold site_act, site_draw. cbn [st_place st_home].
    destruct p; [rewrite D|]; cbn [obind site_messages]; destruct b;
      cbn [handle site_update page_update place_at home_address obind finish st_home st_place st_title];
      unfold site_draw; cbn [st_home st_place]; fold (toggled m); rewrite ?D, ?T; cbn [obind];
      cbn [handle site_update page_update place_at home_address obind finish st_home st_place st_title];
      unfold site_draw; cbn [st_home st_place]; fold (toggled m); rewrite ?D, ?T; reflexivity.
  Qed.
  Lemma going : forall b u p t m,
    drawable m ->
    site_act cfg fuel b (GoTo u) (Site p t m)
    = Ok (Site (fst (place_at u)) (title_of (fst (place_at u))) m).
  Proof.
    intros b u p t m [w D]. unfold site_act, site_draw. cbn [st_place st_home].
    assert (F : handle cfg fuel (site_messages b ShownNotFound (GoTo u)) (Site p t m)
                = Ok (Site (fst (place_at u)) (title_of (fst (place_at u))) m)).
    { cbn [site_messages handle site_update]. rewrite (place_title u). cbn [obind finish fst].
      unfold site_draw. cbn [st_place st_home]. destruct (fst (place_at u)); [rewrite D|]; reflexivity. }
    destruct p; [rewrite D|]; cbn [obind]; exact F.
  Qed.

  (** Visiting the site is visiting the interactive page with the actions that reach it. *)
  Lemma browsing : forall b l p m,
    drawable m ->
    browse cfg fuel b l (Site p (title_of p) m)
    = obind (visit cfg fuel (reaching p l) m) (fun m' =>
      Ok (Site (ending p l) (title_of (ending p l)) m')).
  Proof.
    intros b l. induction l as [|[a| |u] l IH]; intros p m D.
    - reflexivity.
    - destruct (match a with ClickMenu => true | _ => false end) eqn:K.
      + destruct a; try discriminate. cbn [browse reaching ending].
        rewrite menu_nowhere by exact D. cbn [obind]. now apply IH.
      + destruct p.
        * assert (R : reaching AtHome (OnPage a :: l) = a :: reaching AtHome l)
            by (destruct a; try reflexivity; discriminate).
          rewrite R. cbn [browse ending visit].
          rewrite act_at_home by (intros ->; discriminate). rewrite !obind_assoc.
          apply obind_ext. intros [m1 v] A. cbn [obind]. apply IH.
          exact (act_drawable _ _ A).
        * assert (R : reaching AtNotFound (OnPage a :: l) = reaching AtNotFound l)
            by (destruct a; reflexivity).
          rewrite R. cbn [browse ending]. rewrite act_elsewhere. cbn [obind]. now apply IH.
    - cbn [browse reaching ending visit]. rewrite logo by exact D.
      destruct (toggling D) as [v A]. rewrite A. cbn [obind]. apply IH.
      now apply toggled_drawable.
    - cbn [browse reaching ending]. rewrite going by exact D. cbn [obind]. now apply IH.
  Qed.

  (** Opening the site shows the page of the address with a new session. *)
  Lemma default_drawable : forall m, default_home cfg fuel = Ok m -> drawable m.
  Proof.
    intros m E. unfold default_home in E. apply obind_ok in E as (c & _ & E).
    injection E as <-. unfold drawable, draw. simpl. eexists. reflexivity.
  Qed.
  Lemma opening : forall a,
    open_site cfg fuel a
    = obind (default_home cfg fuel) (fun m =>
      Ok (Site (fst (place_at a)) (title_of (fst (place_at a))) m)).
  Proof.
    intros a. unfold open_site, site_init. rewrite obind_assoc. apply obind_ext.
    intros m E. destruct (default_drawable E) as [w D]. rewrite (place_title a).
    cbn [obind finish fst]. assert (I : h_input m = []).
    { unfold default_home in E. apply obind_ok in E as (c & _ & E). now injection E as <-. }
    unfold site_draw. cbn [st_place st_home]. destruct (fst (place_at a)).
    - rewrite D. cbn [obind site_update st_place st_home st_title].
      rewrite area_home. cbn [page_update obind st_place st_home].
      replace (Home (h_context m) [] (h_history m) (h_menu_open m) (h_tutorial m)) with m
        by (destruct m; simpl in I; now rewrite I).
      rewrite D. reflexivity.
    - reflexivity.
  Qed.
  Lemma browsing_opened : forall b a l,
    obind (open_site cfg fuel a) (browse cfg fuel b l)
    = obind (default_home cfg fuel) (fun m =>
      obind (visit cfg fuel (reaching (fst (place_at a)) l) m) (fun m' =>
      let p := ending (fst (place_at a)) l in Ok (Site p (title_of p) m'))).
  Proof.
    intros b a l. rewrite opening, obind_assoc. apply obind_ext. intros m E.
    cbn [obind]. apply browsing. exact (default_drawable E).
  Qed.
End SiteFacts.
