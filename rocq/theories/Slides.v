(** The program that prints the slides of a talk (presentations/src/main.rs). *)
From Verif Require Export Context.
From Coq Require Import String List PeanoNat Lia.
Import ListNotations.
Local Open Scope string_scope.

(** [str::split] of the Rust standard library, used in presentations/src/main.rs:140-146 with patterns that are
    not empty: the text is cut at the leftmost places where the pattern occurs, without overlaps.  [cur] is the
    piece so far, last character first; [skip] characters still belong to the pattern that was found. *)
Fixpoint is_prefix (p t : text) : bool :=
  match p, t with
  | [], _ => true
  | x :: p, y :: t => N.eqb x y && is_prefix p t
  | _ :: _, [] => false
  end.
Fixpoint split_from (sep cur : text) (skip : nat) (t : text) : list text :=
  match t with
  | [] => [rev cur]
  | x :: t' =>
    match skip with
    | S skip => split_from sep cur skip t'
    | O => if is_prefix sep t then rev cur :: split_from sep [] (List.length sep - 1) t'
           else split_from sep (x :: cur) 0 t'
    end
  end.
Definition split (sep t : text) : list text := split_from sep [] 0 t.

(** presentations/src/main.rs:140-146: the patterns *)
Definition fence : text := (txt "//! ```" ++ [10%N])%list.
Definition blank : text := (txt "//!" ++ [10%N])%list.
Definition margin : text := txt "//! ".
Definition call_opens : text := txt "context.execute(""".
Definition call_closes : text := txt """)".

(** presentations/src/main.rs:145-147: the command of a piece of the example, if there is one *)
Definition command_in (piece : text) : list text :=
  match nth_error (split call_opens piece) 1 with
  | None => []
  | Some s => match split call_closes s with [] => [] | s :: _ => [s] end
  end.
(** presentations/src/main.rs:139-149; [source] is the text of zia/src/lib.rs *)
Definition collected (source : text) : outcome (list text) :=
  match nth_error (split fence source) 1 with
  | None => Panic "contents: unwrap"
  | Some contents =>
    Ok (flat_map (fun block => flat_map command_in (split margin block)) (split blank contents))
  end.

(** presentations/src/main.rs:138-155: what is printed.  Simplification: [slides] stands for the constant text of
    lines 5-136. *)
Definition present (cfg : config) (fuel : nat) (source slides : text) : outcome text :=
  obind (collected source) (fun commands =>
    match new_context cfg fuel with
    | Ok c => obind (run_session cfg fuel commands c) (fun _ => Ok slides)
    | Err _ => Panic "new: unwrap"
    | Panic site => Panic site
    | OutOfFuel => OutOfFuel
    end).

(** ** Specification *)
(** [p] occurs in [t]. *)
Definition occurs (p t : text) : Prop := exists a b, t = (a ++ p ++ b)%list.
(** In [a] followed by [p], the first occurrence of [p] is the one at the end. *)
Definition first (p a : text) : Prop := forall x y, (a ++ p = x ++ p ++ y)%list -> y = [].
(** The first call of [execute] on a line of code is with this command. *)
Definition calls_with (code command : text) : Prop :=
  exists before after, code = (before ++ call_opens ++ command ++ call_closes ++ after)%list /\
    first call_opens before /\ first call_closes command /\ ~ occurs call_opens (command ++ call_closes)%list.
(** A line of the documentation: [None] is one with nothing on it. *)
Definition written (l : option text) : text :=
  match l with None => blank | Some code => (margin ++ code ++ [10%N])%list end.
(** A line of an example: one line, which neither ends the example nor has another margin in it. *)
Definition example_line (l : option text) : Prop :=
  match l with
  | None => True
  | Some code => ~ In 10%N code /\ code <> txt "```" /\ ~ occurs (txt "//!") code
  end.
(** The commands that are to be taken from a line: that of its first call. *)
Definition line_calls (l : option text) (commands : list text) : Prop :=
  match l with
  | None => commands = []
  | Some code => commands = [] /\ ~ occurs call_opens code \/
                 exists command, commands = [command] /\ calls_with code command
  end.

(** ** Splitting *)
Lemma is_prefix_spec p : forall t, is_prefix p t = true <-> exists b, t = (p ++ b)%list.
Proof.
  induction p as [|x p IH]; intros t; cbn [is_prefix].
  - split; [intros _; exists t; reflexivity|auto].
  - destruct t as [|y t]; [split; [discriminate|intros (b & E); discriminate E]|].
    rewrite Bool.andb_true_iff, N.eqb_eq, IH. split.
    + intros [-> (b & ->)]. exists b. reflexivity.
    + intros (b & [= -> ->]). eauto.
Qed.
Lemma split_skip sep cur : forall a t, split_from sep cur (List.length a) (a ++ t)%list = split_from sep cur 0 t.
Proof. induction a as [|x a IH]; intros t; cbn [List.length app]; [reflexivity|]. destruct t as [|y t]; apply IH. Qed.
Lemma split_found sep : sep <> [] -> forall a t cur, first sep a -> split_from sep cur 0 (a ++ sep ++ t)%list = (rev cur ++ a)%list :: split sep t.
Proof.
  intros NE. induction a as [|x a IH]; intros t cur F.
  - destruct sep as [|y sep]; [congruence|]. cbn [app split_from].
    assert (is_prefix (y :: sep) (y :: sep ++ t)%list = true) as -> by (apply is_prefix_spec; exists t; reflexivity).
    cbn [List.length]. rewrite Nat.sub_succ, Nat.sub_0_r, split_skip, app_nil_r. reflexivity.
  - cbn [app split_from].
    assert (is_prefix sep (x :: a ++ sep ++ t)%list = false) as ->.
    { destruct (is_prefix sep (x :: a ++ sep ++ t)%list) eqn:E; [|reflexivity]. exfalso. apply is_prefix_spec in E. destruct E as (b & E).
      assert (L : exists y, (x :: a ++ sep = sep ++ y)%list /\ y <> []).
      { change (x :: a ++ sep ++ t)%list with ((x :: a) ++ sep ++ t)%list in E. rewrite app_assoc in E.
        assert (G : forall (p q r s : text), (p ++ q = r ++ s)%list -> le (List.length r) (List.length p) -> exists y, p = (r ++ y)%list).
        { induction p as [|h p IHp]; intros q r s EQ LE; destruct r as [|k r]; cbn in *.
          - exists []. reflexivity.
          - lia.
          - eauto.
          - injection EQ as -> EQ. destruct (IHp _ _ _ EQ ltac:(lia)) as (y & ->). eauto. }
        destruct (G _ _ _ _ E) as (y & Y).
        - rewrite app_length. cbn. lia.
        - exists y. split; [exact Y|]. intros ->. rewrite app_nil_r in Y. apply (f_equal (@List.length _)) in Y. rewrite app_length in Y. cbn in Y. lia. }
      destruct L as (y & Y & NY). apply NY. exact (F [] y Y). }
    rewrite IH; [cbn [rev]; rewrite <- app_assoc; reflexivity|].
    intros u v E. apply (F (x :: u) v). cbn. rewrite E. reflexivity.
Qed.
Lemma split_none sep : forall t cur, ~ occurs sep t -> split_from sep cur 0 t = [(rev cur ++ t)%list].
Proof.
  induction t as [|x t IH]; intros cur N; cbn [split_from]; [rewrite app_nil_r; reflexivity|].
  destruct (is_prefix sep (x :: t)) eqn:E.
  - exfalso. apply is_prefix_spec in E. destruct E as (b & E). apply N. exists [], b. exact E.
  - rewrite IH; [cbn [rev]; rewrite <- app_assoc; reflexivity|]. intros (a & b & ->). apply N. exists (x :: a), b. reflexivity.
Qed.

(** The first piece begins with what has been read. *)
Lemma split_head sep : forall t cur skip, exists u r, split_from sep cur skip t = (rev cur ++ u)%list :: r.
Proof.
  induction t as [|x t IH]; intros cur skip; cbn [split_from].
  - exists [], []. rewrite app_nil_r. reflexivity.
  - destruct skip as [|skip]; [|apply IH]. destruct (is_prefix sep (x :: t)).
    + eexists [], _. rewrite app_nil_r. reflexivity.
    + destruct (IH (x :: cur) 0) as (u & r & E). rewrite E. exists (x :: u), r. cbn [rev]. rewrite <- app_assoc. reflexivity.
Qed.

(** ** The pieces of an example *)
(** A text in which no margin begins is read as it is. *)
Lemma scan sep q : sep = (txt "//!" ++ q)%list -> forall code cur t,
  ~ occurs (txt "//!") code -> split_from sep cur 0 (code ++ 10%N :: t)%list = split_from sep (10%N :: rev code ++ cur)%list 0 t.
Proof.
  intros Q. induction code as [|x code IH]; intros cur t N.
  - cbn [app rev split_from]. assert (is_prefix sep (10%N :: t) = false) as -> by (rewrite Q; reflexivity). reflexivity.
  - cbn [app split_from].
    assert (is_prefix sep (x :: code ++ 10%N :: t)%list = false) as ->.
    { destruct (is_prefix sep _) eqn:E; [|reflexivity]. exfalso. apply is_prefix_spec in E. destruct E as (b & E).
      rewrite Q in E. apply N.
      destruct code as [|y code]; [injection E as E1 E2; discriminate|].
      destruct code as [|z code]; [injection E as E1 E2 E3; discriminate|].
      injection E as -> -> -> _. exists [], code. reflexivity. }
    rewrite IH; [cbn [rev]; rewrite <- app_assoc; reflexivity|]. intros (a & b & ->). apply N. exists (x :: a), b. reflexivity.
Qed.

Definition group := list text.
Definition ungrouped (g : group) : text := concat (map (fun code => written (Some code)) g).
Fixpoint groups (ls : list (option text)) : list group :=
  match ls with
  | [] => [[]]
  | None :: ls => [] :: groups ls
  | Some code :: ls => match groups ls with [] => [[code]] | g :: gs => (code :: g) :: gs end
  end.
Lemma groups_cons ls : exists g gs, groups ls = g :: gs.
Proof. induction ls as [|[code|] ls (g & gs & E)]; cbn [groups]; rewrite ?E; eauto. Qed.

Lemma split_blank : forall ls cur, Forall example_line ls ->
  split_from blank cur 0 (concat (map written ls)) =
  match groups ls with [] => [] | g :: gs => (rev cur ++ ungrouped g)%list :: map ungrouped gs end.
Proof.
  induction ls as [|l ls IH]; intros cur F.
  - cbn. rewrite app_nil_r. reflexivity.
  - apply Forall_cons_iff in F. destruct F as [F1 F2]. cbn [map concat]. destruct (groups_cons ls) as (g & gs & G).
    destruct l as [code|]; cbn [groups written]; rewrite G.
    + destruct F1 as (_ & _ & N). rewrite <- !app_assoc. cbn [app].
      assert (forall t, split_from blank cur 0 (margin ++ t)%list = split_from blank (rev margin ++ cur)%list 0 t) as -> by reflexivity.
      rewrite (scan blank [10%N] eq_refl code _ _ N), (IH _ F2), G. cbn [rev]. rewrite !rev_app_distr, !rev_involutive.
      unfold ungrouped. cbn [map concat written]. rewrite <- !app_assoc. reflexivity.
    + assert (forall t, split_from blank cur 0 (blank ++ t)%list = rev cur :: split_from blank [] 0 t) as -> by reflexivity.
      rewrite (IH _ F2), G. cbn. rewrite app_nil_r. reflexivity.
Qed.
Lemma split_margin : forall g cur, Forall (fun code => example_line (Some code)) g ->
  split_from margin cur 0 (ungrouped g) = rev cur :: map (fun code => (code ++ [10%N])%list) g.
Proof.
  induction g as [|code g IH]; intros cur F; [reflexivity|]. apply Forall_cons_iff in F. destruct F as [(_ & _ & N) F].
  unfold ungrouped. cbn [map concat written]. fold (ungrouped g). rewrite <- !app_assoc. cbn [app].
  assert (forall t, split_from margin cur 0 (margin ++ t)%list = rev cur :: split_from margin [] 0 t) as -> by reflexivity.
  rewrite (scan margin (txt " ") eq_refl code _ _ N), (IH _ F). cbn [rev]. rewrite app_nil_r, rev_involutive. reflexivity.
Qed.
Lemma groups_lines : forall ls, Forall example_line ls -> Forall (Forall (fun code => example_line (Some code))) (groups ls).
Proof.
  induction ls as [|l ls IH]; intros F; [repeat constructor|]. apply Forall_cons_iff in F. destruct F as [F1 F2].
  specialize (IH F2). destruct (groups_cons ls) as (g & gs & G). destruct l as [code|]; cbn [groups]; rewrite G in *.
  - apply Forall_cons_iff in IH. destruct IH as [IH1 IH2]. constructor; [|exact IH2]. constructor; assumption.
  - constructor; [constructor|exact IH].
Qed.

(** ** The command of a line *)
Lemma occurs_newline p code : ~ In 10%N p -> p <> [] -> occurs p (code ++ [10%N])%list -> occurs p code.
Proof.
  intros N NE (a & b & E). destruct b as [|y b _] using rev_ind.
  - exfalso. rewrite app_nil_r in E. destruct p as [|z p _] using rev_ind; [congruence|].
    rewrite app_assoc in E. apply app_inj_tail in E. destruct E as [_ <-]. apply N, in_or_app. right. left. reflexivity.
  - rewrite !app_assoc in E. apply app_inj_tail in E. destruct E as [-> _]. exists a, b. rewrite app_assoc. reflexivity.
Qed.
Lemma prefixes {A} : forall (p q r s : list A), (p ++ q = r ++ s)%list ->
  (exists y, p = (r ++ y)%list /\ s = (y ++ q)%list) \/ (exists y, r = (p ++ y)%list /\ q = (y ++ s)%list).
Proof.
  induction p as [|h p IH]; intros q r s E; cbn in E.
  - right. exists r. split; [reflexivity|exact E].
  - destruct r as [|k r]; cbn in E.
    + left. exists (h :: p). split; [reflexivity|]. symmetry. exact E.
    + injection E as -> E. destruct (IH _ _ _ E) as [(y & -> & ->)|(y & -> & ->)]; [left|right]; exists y; split; reflexivity.
Qed.
Fixpoint occurs_b (p t : text) : bool := is_prefix p t || match t with [] => false | _ :: t => occurs_b p t end.
Lemma occurs_b_ok p : forall t, occurs_b p t = false -> ~ occurs p t.
Proof.
  induction t as [|x t IH]; intros E (a & b & T); cbn [occurs_b] in E; apply Bool.orb_false_iff in E; destruct E as [E1 E2].
  - destruct a; [|discriminate T]. assert (is_prefix p [] = true) by (apply is_prefix_spec; eauto). congruence.
  - destruct a as [|y a].
    + cbn [app] in T. assert (is_prefix p (x :: t) = true) by (apply is_prefix_spec; eauto). congruence.
    + injection T as -> T. apply (IH E2). exists a, b. exact T.
Qed.

Lemma scan_command : forall command cur t, ~ occurs call_opens (command ++ call_closes)%list ->
  split_from call_opens cur 0 (command ++ call_closes ++ t)%list = split_from call_opens (rev (command ++ call_closes) ++ cur)%list 0 t.
Proof.
  induction command as [|x command IH]; intros cur t N; [reflexivity|]. cbn [app split_from].
  assert (is_prefix call_opens (x :: command ++ call_closes ++ t)%list = false) as ->.
  { destruct (is_prefix call_opens (x :: command ++ call_closes ++ t)%list) eqn:E; [|reflexivity]. exfalso. apply is_prefix_spec in E. destruct E as (b & E).
    change (x :: command ++ call_closes ++ t)%list with ((x :: command) ++ call_closes ++ t)%list in E.
    destruct (prefixes _ _ _ _ E) as [(y & Y & _)|(y & Y & T)].
    - apply N. exists [], (y ++ call_closes)%list. rewrite Y, <- app_assoc. reflexivity.
    - destruct (prefixes _ _ _ _ T) as [(z & Z & _)|(z & Z & _)].
      + apply N. exists [], z. rewrite Y, Z. cbn [app]. rewrite <- app_assoc. reflexivity.
      + revert Y. rewrite Z. intros Y. apply (occurs_b_ok call_closes call_opens eq_refl). exists (x :: command), z. exact Y. }
  rewrite IH; [cbn [app rev]; rewrite <- !app_assoc; reflexivity|]. intros (a & b & E). apply N. exists (x :: a), b. cbn [app]. rewrite E. reflexivity.
Qed.
Lemma command_of code commands : line_calls (Some code) commands -> command_in (code ++ [10%N])%list = commands.
Proof.
  unfold command_in, split. intros [(-> & N)|(command & -> & before & after & -> & F1 & F2 & N)].
  - rewrite split_none; [reflexivity|]. intros O. apply N. revert O. apply occurs_newline; [|discriminate].
    intros I. repeat (destruct I as [I|I]; [discriminate I|]). exact I.
  - rewrite <- !app_assoc, split_found by (assumption || discriminate). cbn [nth_error]. unfold split.
    rewrite scan_command by exact N. rewrite app_nil_r.
    destruct (split_head call_opens (after ++ [10%N])%list (rev (command ++ call_closes)%list) 0) as (u & r & ->).
    cbn [nth_error]. rewrite rev_involutive, <- app_assoc, split_found by (assumption || discriminate). reflexivity.
Qed.
Lemma command_of_nothing : command_in [] = [].
Proof. reflexivity. Qed.

Lemma commands_of_lines : forall ls css, Forall2 line_calls ls css ->
  flat_map (fun g => flat_map command_in (map (fun code => code ++ [10%N])%list g)) (groups ls) = concat css.
Proof.
  intros ls css F. induction F as [|l cs ls css L F IH]; [reflexivity|]. destruct (groups_cons ls) as (g & gs & G).
  destruct l as [code|]; cbn [groups concat]; rewrite <- IH, G; cbn [flat_map map].
  - rewrite (command_of _ _ L), <- app_assoc. reflexivity.
  - cbn in L. subst cs. reflexivity.
Qed.

(** ** The end of the example *)
Lemma split_fence : forall ls cur t, Forall example_line ls ->
  exists r, split_from fence cur 0 (concat (map written ls) ++ fence ++ t)%list = (rev cur ++ concat (map written ls))%list :: r.
Proof.
  induction ls as [|l ls IH]; intros cur t F.
  - cbn [map concat app]. exists (split fence t). rewrite app_nil_r. reflexivity.
  - apply Forall_cons_iff in F. destruct F as [F1 F2]. cbn [map concat]. destruct l as [code|]; cbn [written].
    + destruct F1 as (NL & NF & N).
      assert (P : forall t, split_from fence cur 0 (margin ++ code ++ 10%N :: t)%list = split_from fence (rev margin ++ cur)%list 0 (code ++ 10%N :: t)%list).
      { intros u. change (margin ++ code ++ 10%N :: u)%list with (47%N :: (47 :: 33 :: 32 :: nil)%N ++ code ++ 10%N :: u)%list. cbn [split_from].
        assert (is_prefix fence (47%N :: (47 :: 33 :: 32 :: nil)%N ++ code ++ 10%N :: u)%list = false) as ->; [|reflexivity].
        destruct (is_prefix fence _) eqn:E; [|reflexivity]. exfalso. apply is_prefix_spec in E. destruct E as (b & E).
        apply (app_inv_head margin) with (l1 := (code ++ 10%N :: u)%list) (l2 := (txt "```" ++ 10%N :: b)%list) in E.
        destruct (prefixes _ _ _ _ E) as [([|y1 y] & Y & T)|([|y1 y] & Y & T)].
        - apply NF. rewrite Y. apply app_nil_r.
        - injection T as <- _. apply NL. rewrite Y. apply in_or_app. right. left. reflexivity.
        - apply NF. rewrite Y. symmetry. apply app_nil_r.
        - injection T as <- _.
          assert (I : In 10%N (txt "```")) by (rewrite Y; apply in_or_app; right; left; reflexivity).
          repeat (destruct I as [I|I]; [discriminate I|]). exact I. }
      rewrite <- !app_assoc. cbn [app]. rewrite P, (scan fence (txt " ```" ++ [10%N])%list eq_refl code _ _ N).
      destruct (IH (10%N :: rev code ++ rev margin ++ cur)%list t F2) as (r & ->). exists r.
      cbn [rev]. rewrite !rev_app_distr, !rev_involutive, <- !app_assoc. reflexivity.
    + rewrite <- app_assoc.
      assert (forall t, split_from fence cur 0 (blank ++ t)%list = split_from fence (rev blank ++ cur)%list 0 t) as -> by reflexivity.
      destruct (IH (rev blank ++ cur)%list t F2) as (r & ->). exists r. rewrite rev_app_distr, rev_involutive, <- app_assoc. reflexivity.
Qed.

(** The commands are those of the first calls on the lines of the first example. *)
Lemma collected_lines before ls css after :
  first fence before -> Forall example_line ls -> Forall2 line_calls ls css ->
  collected (before ++ fence ++ concat (map written ls) ++ fence ++ after)%list = Ok (concat css).
Proof.
  intros F1 F2 F3. unfold collected, split at 1. rewrite split_found by (assumption || discriminate). unfold split at 1.
  destruct (split_fence ls [] after F2) as (r & ->). cbn [nth_error rev app]. f_equal.
  change (split blank (concat (map written ls))) with (split_from blank [] 0 (concat (map written ls))).
  rewrite split_blank by exact F2. pose proof (groups_lines ls F2) as GL.
  rewrite <- (commands_of_lines _ _ F3). destruct (groups ls) as [|g gs]; [reflexivity|].
  cbn [rev app]. change (ungrouped g :: map ungrouped gs) with (map ungrouped (g :: gs)). revert GL. generalize (g :: gs). clear.
  induction l as [|g l IH]; intros GL; [reflexivity|]. apply Forall_cons_iff in GL. destruct GL as [G1 G2].
  cbn [map flat_map]. rewrite (IH G2). f_equal. unfold split. rewrite (split_margin g [] G1). reflexivity.
Qed.
