(** Declaring and forgetting reductions: C19, C20 and a part of C44. *)
From Verif Require Import Start Snapshot Context StoreSpec NameSpec FrameSpec MapFacts AstFacts RangeFacts History
  Steps Sample Witness NameWitness Quiet Frames Reductions Declare PropertiesFrames.
From Coq Require Import String List Bool Relations PeanoNat Lia.
Import ListNotations.
Local Open Scope string_scope.

Definition kind_is (s : snapshot) (n : nat) (cc : cct) : bool :=
  opt_cct_eqb (built_in_of s n) (Some cc).
Lemma kind_is_ok s n cc : kind_is s n cc = true -> built_in s n cc.
Proof.
  unfold kind_is, built_in_of, built_in. destruct (lookup s n) as [c|]; [|discriminate].
  destruct (c_spec c) as [k| |] eqn:E; try discriminate. intros H. exists c. split; [reflexivity|].
  assert (k = cc) by (destruct k, cc; first [reflexivity|discriminate H]). congruence.
Qed.
Definition text_is (s : snapshot) (n : nat) (t : text) : bool :=
  match text_of s n with Some u => text_eqb u t | None => false end.
Lemma text_is_ok s n t : text_is s n t = true -> has_text s n t.
Proof.
  unfold text_is, text_of, has_text. destruct (lookup s n) as [c|]; [|discriminate].
  destruct (c_spec c) as [| |u] eqn:E; try discriminate. destruct (text_eqb_spec u t) as [->|]; [|discriminate].
  intros _. exists c. auto.
Qed.

(** Deciding what a command is read as. *)
Definition is_built_in (s : snapshot) (t : tree) (cc : cct) : bool :=
  match t_concept t with Some (Committed n) => kind_is s n cc | _ => false end.
Lemma is_built_in_ok s t cc :
  is_built_in s t cc = true -> exists n, t_concept t = Some (Committed n) /\ built_in s n cc.
Proof.
  unfold is_built_in. destruct (t_concept t) as [[n|]|]; try discriminate. intros H. exists n.
  split; [reflexivity|apply kind_is_ok, H].
Qed.
Definition as_reduction (c : ctx) (command : string) : option (tree * tree) :=
  match read_tree cfg0 fuel0 (txt command) c with
  | Ok (Val t, _) =>
    match t_concept t, t_exp t with
    | None, Some (tl, ta) =>
      match t_exp ta with
      | Some (a, p) =>
        match t_exp p with
        | Some (ar, b) =>
          if is_built_in (c_snap c) tl CLet && is_built_in (c_snap c) ar CReduction then Some (a, b) else None
        | None => None
        end
      | None => None
      end
    | _, _ => None
    end
  | _ => None
  end.
Lemma as_reduction_ok c command a b :
  as_reduction c command = Some (a, b) -> reads_as_reduction cfg0 fuel0 c (txt command) a b.
Proof.
  unfold as_reduction. destruct (read_tree _ _ _ _) as [[[t|e] c1]| | |] eqn:R; try discriminate.
  destruct (t_concept t) eqn:T1; [discriminate|]. destruct (t_exp t) as [[tl ta]|] eqn:T2; [|discriminate].
  destruct (t_exp ta) as [[a' p]|] eqn:T3; [|discriminate]. destruct (t_exp p) as [[ar b']|] eqn:T4; [|discriminate].
  destruct (is_built_in _ tl _ && is_built_in _ ar _)%bool eqn:B; [|discriminate].
  apply andb_prop in B. destruct B as [B1 B2].
  apply is_built_in_ok in B1, B2. destruct B1 as (nl & N1 & B1). destruct B2 as (na & N2 & B2).
  intros E. injection E as -> ->. exists t, c1, tl, ta, p, ar, nl, na. auto 10.
Qed.
Definition as_forget (c : ctx) (command : string) : option tree :=
  match read_tree cfg0 fuel0 (txt command) c with
  | Ok (Val t, _) =>
    match t_concept t, t_exp t with
    | None, Some (tf, a) => if is_built_in (c_snap c) tf CForget then Some a else None
    | _, _ => None
    end
  | _ => None
  end.
Lemma as_forget_ok c command a :
  as_forget c command = Some a -> reads_as_forget cfg0 fuel0 c (txt command) a.
Proof.
  unfold as_forget. destruct (read_tree _ _ _ _) as [[[t|e] c1]| | |] eqn:R; try discriminate.
  destruct (t_concept t) eqn:T1; [discriminate|]. destruct (t_exp t) as [[tf a']|] eqn:T2; [|discriminate].
  destruct (is_built_in _ tf _) eqn:B; [|discriminate].
  apply is_built_in_ok in B. destruct B as (nf & N & B).
  intros E. injection E as ->. exists t, c1, tf, nf. auto 10.
Qed.
(** No composition that could name [n] reduces to anything. *)
Definition unlabelled (s : snapshot) (n : nat) : bool :=
  forallb (fun k => match composition_of s k, reduction_of s k with
                    | Some (_, r), Some _ => negb (Nat.eqb r n)
                    | _, _ => true end) (seq 0 (size s)).
Lemma unlabelled_ok s n t : unlabelled s n = true -> ~ carries_label s n t.
Proof.
  intros U (lab & comp & str & _ & C & R & _). unfold unlabelled in U. rewrite forallb_forall in U.
  assert (L : comp < size s) by (destruct C as (c & _ & _ & _ & L & _); apply known_lt; congruence).
  specialize (U comp). rewrite in_seq in U. specialize (U (conj (Nat.le_0_l _) L)).
  apply composition_of_composed in C. rewrite C in U.
  assert (X : exists r, reduces s comp r) by (clear - R; induction R; eauto). destruct X as [r X].
  apply reduction_of_reduces in X. rewrite X, Nat.eqb_refl in U. discriminate.
Qed.

Definition pair_is (o : option (nat * nat)) (l r : nat) : bool :=
  match o with Some (x, y) => Nat.eqb x l && Nat.eqb y r | None => false end.
Lemma pair_is_eq o l r : pair_is o l r = true -> o = Some (l, r).
Proof.
  destruct o as [[x y]|]; [|discriminate]. cbn. intros E. apply andb_prop in E. destruct E as [E1 E2].
  apply Nat.eqb_eq in E1, E2. congruence.
Qed.

(** ** C19 *)

(** The part about names is false: `let (label_of (p q)) -> (label_of t)` succeeds and gives
    the existing concept `p q`, which had no name, the name `t`. *)
Definition name_commands := ["let s -> (p q)"].
Definition name_check (c : ctx) (r : text) (c' : ctx) : bool :=
  text_eqb r [] && opt_is (option_map snd (composition_of (c_snap c) 89)) 88 && unlabelled (c_snap c) 89 &&
  opt_is (reduction_of (c_snap c') 93) 91 && opt_is (reduction_of (c_snap c') 91) 90 &&
  pair_is (composition_of (c_snap c') 93) 2 89 &&
  kind_is (c_snap c') 2 CLabel && text_is (c_snap c') 90 (txt "t") &&
  match as_reduction c "let (label_of (p q)) -> (label_of t)" with
  | Some (a, b) => negb (key_eqb (t_key a) (t_key b)) | None => false end.
Lemma name_checked :
  on_session (run_session cfg0 fuel0 (map txt name_commands) context0)
    (then_command "let (label_of (p q)) -> (label_of t)" name_check) = true.
Proof. vm_compute. reflexivity. Qed.
Theorem C19_declared_reduction_names_refuted :
  exists c c' a b n, reachable true c /\
    reads_as_reduction cfg0 fuel0 c (txt "let (label_of (p q)) -> (label_of t)") a b /\
    execute cfg0 fuel0 (txt "let (label_of (p q)) -> (label_of t)") c = Ok ([], c') /\
    lookup (c_snap c) n <> None /\
    (forall t, ~ carries_label (c_snap c) n t) /\ carries_label (c_snap c') n (txt "t").
Proof.
  destruct (session_witness _ _ name_checked) as (rs & c & _ & R & K).
  apply then_command_ok in K. destruct K as (r & c' & E & K). unfold name_check in K.
  repeat (apply andb_prop in K; destruct K as [K ?]).
  destruct (as_reduction c _) as [[a b]|] eqn:A; [|discriminate].
  destruct (text_eqb_spec r []) as [->|]; [|discriminate].
  exists c, c', a, b, 89. split; [exact R|]. split; [apply as_reduction_ok, A|]. split; [exact E|].
  repeat match goal with H : opt_is _ _ = true |- _ => apply opt_is_eq in H end.
  split; [intros L; match goal with H : option_map snd _ = _ |- _ => unfold composition_of in H; rewrite L in H; discriminate end|].
  split; [intros t; apply unlabelled_ok; assumption|].
  exists 2, 93, 90. split; [|split; [|split]].
  - apply kind_is_ok. assumption.
  - apply composition_of_composed, pair_is_eq. assumption.
  - eapply t_trans; apply t_step, reduction_of_reduces; eassumption.
  - apply text_is_ok. assumption.
Qed.
Print Assumptions C19_declared_reduction_names_refuted.

(** A command read as `let a -> b`, for two different expressions: if it is answered with an error then
    nothing about any existing concept is different; otherwise [a] reduces to [b], and every
    other existing concept keeps its reduction, and every existing concept its composition,
    text and kind, and its name unless [a] is on the way from the concept to its name.
    Missing for the whole of C19: names that go through [a] (refuted above). *)
Theorem C19_declared_reduction_takes_effect_partial bd c cfg fuel command answer c' a b :
  fair cfg -> reachable bd c -> reads_as_reduction cfg fuel c command a b ->
  t_key a <> t_key b ->
  execute cfg fuel command c = Ok (answer, c') ->
  (exists e, answer = error_text e /\ same_meaning (c_snap c) (c_snap c')) \/
  (answer = [] /\ exists x y, reduces (c_snap c') x y /\
     (forall i, t_concept a = Some i -> x = place (c_snap c) i) /\
     (forall i, t_concept b = Some i -> y = place (c_snap c) i) /\
     only_reduction_of x (c_snap c) (c_snap c')).
Proof. intros F R. exact (declared cfg fuel command c answer c' a b F (reachable_ready bd c R)). Qed.
Print Assumptions C19_declared_reduction_takes_effect_partial.

Definition is_leaf (t : tree) : bool := match t with TLeaf _ _ _ => true | _ => false end.
(** The hypotheses are met by `let b -> c` in a store where [a] reduces to [b]. *)
Definition declare_check (c : ctx) (r : text) (c' : ctx) : bool :=
  text_eqb r [] && opt_is (reduction_of (c_snap c) 82) 85 &&
  match as_reduction c "let b -> c" with
  | Some (a, b) =>
    match t_concept a with Some (Committed n) => Nat.eqb n 85 | _ => false end &&
    is_leaf a && is_leaf b && negb (key_eqb (t_key a) (t_key b))
  | None => false end.
Lemma declare_checked :
  on_session (run_session cfg0 fuel0 (map txt ["let a -> b"]) context0)
    (then_command "let b -> c" declare_check) = true.
Proof. vm_compute. reflexivity. Qed.

Example C19_applies : exists c c' a b, reachable true c /\ reduces (c_snap c) 82 85 /\
  reads_as_reduction cfg0 fuel0 c (txt "let b -> c") a b /\ t_concept a = Some (Committed 85) /\
  execute cfg0 fuel0 (txt "let b -> c") c = Ok ([], c') /\
  (exists y, reduces (c_snap c') 85 y) /\ reduces (c_snap c') 82 85.
Proof.
  destruct (session_witness _ _ declare_checked) as (rs & c & _ & R & K).
  apply then_command_ok in K. destruct K as (r & c' & E & K). unfold declare_check in K.
  apply andb_prop in K. destruct K as [K K3]. apply andb_prop in K. destruct K as [K1 K2].
  destruct (text_eqb_spec r []) as [->|]; [|discriminate].
  apply opt_is_eq, reduction_of_reduces in K2.
  destruct (as_reduction c _) as [[a b]|] eqn:A; [|discriminate]. apply as_reduction_ok in A.
  apply andb_prop in K3. destruct K3 as [K3 K6]. apply andb_prop in K3. destruct K3 as [K3 K5].
  apply andb_prop in K3. destruct K3 as [K3 K4].
  destruct (t_concept a) as [[n|]|] eqn:TA; try discriminate. apply Nat.eqb_eq in K3. subst n.
  exists c, c', a, b. split; [exact R|]. split; [exact K2|]. split; [exact A|]. split; [exact TA|].
  split; [exact E|].
  destruct (C19_declared_reduction_takes_effect_partial true c cfg0 fuel0 _ [] c' a b fair0 R A) as [(e & H & _)|(_ & x & y & RX & X & _ & O)].
  - intros H. rewrite H in K6. destruct (key_eqb_spec (t_key b) (t_key b)); [discriminate|contradiction].
  - exact E.
  - destruct (error_not_empty e). symmetry. exact H.
  - specialize (X _ TA). cbn in X. subst x. split; [eauto|].
    destruct (O 82) as [S _]; [|apply S; [discriminate|exact K2]].
    destruct K2 as (k & _ & L & _). congruence.
Qed.

(** ** C20 *)

(** The part about names is false: `forget (label_of a)` takes the name away from [a]. *)
Definition unname_check (c : ctx) (r : text) (c' : ctx) : bool :=
  text_eqb r [] && carries (c_snap c) 82 (txt "a") && unlabelled (c_snap c') 82 &&
  match as_forget c "forget (label_of a)" with
  | Some a => match t_concept a with Some (Committed n) => Nat.eqb n 81 | _ => false end | None => false end.
Lemma unname_checked :
  on_session (run_session cfg0 fuel0 (map txt ["let a -> b"]) context0)
    (then_command "forget (label_of a)" unname_check) = true.
Proof. vm_compute. reflexivity. Qed.
Theorem C20_forgotten_name_refuted :
  exists c c' a x n, reachable true c /\
    reads_as_forget cfg0 fuel0 c (txt "forget (label_of a)") a /\ t_concept a = Some (Committed x) /\ n <> x /\
    execute cfg0 fuel0 (txt "forget (label_of a)") c = Ok ([], c') /\
    carries_label (c_snap c) n (txt "a") /\ (forall t, ~ carries_label (c_snap c') n t).
Proof.
  destruct (session_witness _ _ unname_checked) as (rs & c & _ & R & K).
  apply then_command_ok in K. destruct K as (r & c' & E & K). unfold unname_check in K.
  repeat (apply andb_prop in K; destruct K as [K ?]).
  destruct (as_forget c _) as [a|] eqn:A; [|discriminate].
  destruct (text_eqb_spec r []) as [->|]; [|discriminate].
  destruct (t_concept a) as [[x|]|] eqn:TA; try discriminate.
  match goal with H : (x =? 81)%nat = true |- _ => apply Nat.eqb_eq in H; subst x end.
  exists c, c', a, 81, 82. split; [exact R|]. split; [apply as_forget_ok, A|]. split; [exact TA|].
  split; [discriminate|]. split; [exact E|]. split; [apply carries_label_of; assumption|].
  intros t. apply unlabelled_ok. assumption.
Qed.
Print Assumptions C20_forgotten_name_refuted.

(** A command read as `forget a`, where [a] is the existing concept [x]: either it is
    answered with an error and nothing about any existing concept is different, or [x] had a
    reduction before and has none afterwards, and the rest is as in C19. In particular, if
    [x] had no reduction the answer is an error. Missing for the whole of C20: names that go
    through [x] (refuted above). *)
Theorem C20_forget_takes_effect_partial bd c cfg fuel command answer c' a x :
  fair cfg -> reachable bd c -> reads_as_forget cfg fuel c command a -> t_concept a = Some (Committed x) ->
  execute cfg fuel command c = Ok (answer, c') ->
  (exists e, answer = error_text e /\ same_meaning (c_snap c) (c_snap c')) \/
  (answer = [] /\ (exists y, reduces (c_snap c) x y) /\ (forall y, ~ reduces (c_snap c') x y) /\
   only_reduction_of x (c_snap c) (c_snap c')).
Proof. intros F R. exact (forgotten cfg fuel command c answer c' a x F (reachable_ready bd c R)). Qed.
Print Assumptions C20_forget_takes_effect_partial.
(** The same for a command read as `let a -> a`. *)
Theorem C20_let_self_takes_effect_partial bd c cfg fuel command answer c' a b x :
  fair cfg -> reachable bd c -> reads_as_reduction cfg fuel c command a b -> t_key a = t_key b ->
  t_concept a = Some (Committed x) ->
  execute cfg fuel command c = Ok (answer, c') ->
  (exists e, answer = error_text e /\ same_meaning (c_snap c) (c_snap c')) \/
  (answer = [] /\ (exists y, reduces (c_snap c) x y) /\ (forall y, ~ reduces (c_snap c') x y) /\
   only_reduction_of x (c_snap c) (c_snap c')).
Proof. intros F R. exact (undeclared cfg fuel command c answer c' a b x F (reachable_ready bd c R)). Qed.
Print Assumptions C20_let_self_takes_effect_partial.
Theorem C20_nothing_to_forget_is_an_error bd c cfg fuel command answer c' a x :
  fair cfg -> reachable bd c -> reads_as_forget cfg fuel c command a -> t_concept a = Some (Committed x) ->
  (forall y, ~ reduces (c_snap c) x y) ->
  execute cfg fuel command c = Ok (answer, c') ->
  exists e, answer = error_text e /\ same_meaning (c_snap c) (c_snap c').
Proof.
  intros F R H1 H2 N E.
  destruct (C20_forget_takes_effect_partial bd c cfg fuel command answer c' a x F R H1 H2 E) as [H|(_ & [y Y] & _)];
    [exact H|destruct (N y Y)].
Qed.
Print Assumptions C20_nothing_to_forget_is_an_error.

(** In a store where [a] reduces to [b]: `forget a` and `let a -> a` forget, `forget b`
    fails. *)
Definition forget_check (c : ctx) (r : text) (c' : ctx) : bool :=
  text_eqb r [] && opt_is (reduction_of (c_snap c) 82) 85 &&
  match as_forget c "forget a" with
  | Some a => match t_concept a with Some (Committed n) => Nat.eqb n 82 | _ => false end | None => false end &&
  match as_reduction c "let a -> a" with
  | Some (a, b) => key_eqb (t_key a) (t_key b) &&
      match t_concept a with Some (Committed n) => Nat.eqb n 82 | _ => false end | None => false end &&
  match as_forget c "forget b" with
  | Some a => match t_concept a with Some (Committed n) => Nat.eqb n 85 | _ => false end | None => false end.
Lemma forget_checked :
  on_session (run_session cfg0 fuel0 (map txt ["let a -> b"]) context0)
    (then_command "forget a" forget_check) = true.
Proof. vm_compute. reflexivity. Qed.
Example C20_applies : exists c c' a a1 b1 a2, reachable true c /\ reduces (c_snap c) 82 85 /\
  reads_as_forget cfg0 fuel0 c (txt "forget a") a /\ t_concept a = Some (Committed 82) /\
  reads_as_reduction cfg0 fuel0 c (txt "let a -> a") a1 b1 /\ t_key a1 = t_key b1 /\ t_concept a1 = Some (Committed 82) /\
  reads_as_forget cfg0 fuel0 c (txt "forget b") a2 /\ t_concept a2 = Some (Committed 85) /\
  execute cfg0 fuel0 (txt "forget a") c = Ok ([], c') /\ (forall y, ~ reduces (c_snap c') 82 y).
Proof.
  destruct (session_witness _ _ forget_checked) as (rs & c & _ & R & K).
  apply then_command_ok in K. destruct K as (r & c' & E & K). unfold forget_check in K.
  apply andb_prop in K. destruct K as [K K5]. apply andb_prop in K. destruct K as [K K4].
  apply andb_prop in K. destruct K as [K K3]. apply andb_prop in K. destruct K as [K1 K2].
  destruct (text_eqb_spec r []) as [->|]; [|discriminate].
  apply opt_is_eq, reduction_of_reduces in K2.
  destruct (as_forget c "forget a") as [a|] eqn:A; [|discriminate]. apply as_forget_ok in A.
  destruct (t_concept a) as [[n|]|] eqn:TA; try discriminate. apply Nat.eqb_eq in K3. subst n.
  destruct (as_reduction c _) as [[a1 b1]|] eqn:A1; [|discriminate]. apply as_reduction_ok in A1.
  apply andb_prop in K4. destruct K4 as [K4 K6].
  destruct (key_eqb_spec (t_key a1) (t_key b1)) as [KE|]; [|discriminate].
  destruct (t_concept a1) as [[n|]|] eqn:TA1; try discriminate. apply Nat.eqb_eq in K6. subst n.
  destruct (as_forget c "forget b") as [a2|] eqn:A2; [|discriminate]. apply as_forget_ok in A2.
  destruct (t_concept a2) as [[n|]|] eqn:TA2; try discriminate. apply Nat.eqb_eq in K5. subst n.
  exists c, c', a, a1, b1, a2. repeat (split; [assumption|]).
  destruct (C20_forget_takes_effect_partial true c cfg0 fuel0 _ _ c' a 82 fair0 R A TA E) as [(e & H & _)|(_ & _ & N & _)];
    [|exact N]. destruct (error_not_empty e). symmetry. exact H.
Qed.

(** ** C44 *)

(** Declarations and removals of reductions are all or nothing: answered with an error, they
    leave every existing concept as it was. Missing for the whole of C44: definitions with
    `:=` (refuted in PropertiesFrames.v). *)
Theorem C44_failed_reduction_changes_nothing_partial bd c cfg fuel command e c' a b :
  fair cfg -> reachable bd c ->
  (reads_as_reduction cfg fuel c command a b /\ t_key a <> t_key b \/
   exists x, t_concept a = Some (Committed x) /\
     (reads_as_forget cfg fuel c command a \/ reads_as_reduction cfg fuel c command a b /\ t_key a = t_key b)) ->
  execute cfg fuel command c = Ok (error_text e, c') ->
  same_meaning (c_snap c) (c_snap c').
Proof.
  intros F R H E.
  assert (X : (exists e', error_text e = error_text e' /\ same_meaning (c_snap c) (c_snap c')) \/ error_text e = []).
  { destruct H as [(H1 & H2)|(x & H1 & [H2|(H2 & H3)])].
    - destruct (C19_declared_reduction_takes_effect_partial bd c cfg fuel command _ c' a b F R H1 H2 E) as [X|[X _]]; auto.
    - destruct (C20_forget_takes_effect_partial bd c cfg fuel command _ c' a x F R H2 H1 E) as [X|[X _]]; auto.
    - destruct (C20_let_self_takes_effect_partial bd c cfg fuel command _ c' a b x F R H2 H3 H1 E) as [X|[X _]]; auto. }
  destruct X as [(e' & _ & X)|X]; [exact X|destruct (error_not_empty e X)].
Qed.
Print Assumptions C44_failed_reduction_changes_nothing_partial.
