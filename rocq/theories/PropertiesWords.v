(** C59, C60: the words of a command, and what they name when it is done.  C41: definitions between words. *)
From Verif Require Import Start Parser Context StoreSpec NameSpec FrameSpec MapFacts AstFacts StoreFacts StoreInv RangeFacts History Steps Keep
  Sample Witness NameWitness Quiet Frames Links Reductions Declare Define Words Said OwnTrees Spoken Answers Replies PropertiesFrames PropertiesReductions
  PropertiesDefine PropertiesSequences PropertiesAnswers.
From Coq Require Import String List Bool PeanoNat Relations.
Import ListNotations.
Local Open Scope string_scope.

(** The word leads to nothing in the store, or only to concepts that are not composed of others and are no
    free variables. *)
Definition simple (s : snapshot) (w : text) : Prop :=
  forall n, found_under s w n -> (forall l r, ~ composed s n l r) /\ ~ leaf_variable s n FreeVariable.
Lemma simple_is s w : simple s w -> simple_word s w.
Proof.
  intros H n X. destruct (H n X) as [A B]. split.
  - destruct (comp_at s n) as [[l r]|] eqn:C; [|reflexivity]. apply composed_at in C. destruct (A _ _ C).
  - intros C. apply B, leaf_variable_at, C.
Qed.

(** ** C59 *)
(** A command whose words are nested as in `let (w1 (-> w2))` is answered without an error: then the two
    words are names afterwards, of concepts the first of which reduces to the second; a word that leads to
    a concept that existed before led to it before; and nothing else reduces to something else than before.
    The words are unknown or [simple], the first leads to nothing with a listed reduction, and neither is
    read as a variable.  For every history, command, hash order and amount of fuel (debug builds). *)
Theorem C59_declarations_relate_what_the_words_name cfg fuel c command c' u c0 a b w1 w2 :
  fair cfg -> dbg cfg = true -> reachable true c ->
  ast_from_expression cfg fuel command c = Ok (Val u, c0) -> nested_words u w1 w2 ->
  reads_as_reduction cfg fuel c command a b -> is_leaf_variable a = false -> is_leaf_variable b = false ->
  simple (c_snap c) w1 -> simple (c_snap c) w2 ->
  (forall n y, found_under (c_snap c) w1 n -> ~ lists_reduction_from (c_snap c) y n) ->
  execute cfg fuel command c = Ok ([], c') ->
  exists x y, found_under (c_snap c') w1 x /\ found_under (c_snap c') w2 y /\ reduces (c_snap c') x y /\
    (lt x (size (c_snap c)) -> found_under (c_snap c) w1 x) /\ (lt y (size (c_snap c)) -> found_under (c_snap c) w2 y) /\
    only_reduction_of x (c_snap c) (c_snap c').
Proof.
  intros F D R E0 N RR V1 V2 S1 S2. apply simple_is in S1, S2.
  exact (spoken_declaration cfg fuel F D c R command c' u c0 a b w1 w2 E0 N RR V1 V2 S1 S2).
Qed.
Print Assumptions C59_declarations_relate_what_the_words_name.

(** ** C60 *)
(** A command that is answered with something else than an error or the empty text: every word of it leads
    afterwards to the concept it was taken to stand for when it was read (new numbers are translated to the
    places the concepts got in the store). *)
Theorem C60_words_of_questions_are_names cfg fuel c command answer c' u c0 :
  fair cfg -> dbg cfg = true -> reachable true c -> ast_from_expression cfg fuel command c = Ok (Val u, c0) ->
  execute cfg fuel command c = Ok (answer, c') -> answer <> [] -> (forall e, answer <> error_text e) ->
  forall w o, In (w, o) (tree_names u) -> exists x, o = Some x /\ found_under (c_snap c') w (place (c_snap c) x).
Proof.
  intros F D R E0 E N1 N2 w o J. destruct (question_words cfg fuel F D command c answer c' u c0 R E0 E N1 N2 w o J) as (x & E1 & H).
  exists x. split; [exact E1|]. rewrite place_rho. exact H.
Qed.
Print Assumptions C60_words_of_questions_are_names.

(** ** C41 *)
(** A command whose words are nested as in `let (w1 (:= (w2 w3)))` is answered without an error: then the
    words are names afterwards, and what the first names is the composition of what the others name.
    Missing for the full claim: words that stand for compositions already, for which it is false
    (PropertiesCommand.v). *)
Theorem C41_definitions_relate_what_the_words_name_partial cfg fuel c command c' u c0 a b l r w1 w2 w3 :
  fair cfg -> dbg cfg = true -> reachable true c ->
  ast_from_expression cfg fuel command c = Ok (Val u, c0) -> nested_three u w1 w2 w3 ->
  reads_as_definition cfg fuel c command a b -> t_exp b = Some (l, r) ->
  is_leaf_variable a = false -> is_leaf_variable l = false -> is_leaf_variable r = false ->
  simple (c_snap c) w1 -> simple (c_snap c) w2 -> simple (c_snap c) w3 ->
  execute cfg fuel command c = Ok ([], c') ->
  exists x y z, found_under (c_snap c') w1 x /\ found_under (c_snap c') w2 y /\ found_under (c_snap c') w3 z /\
    composed (c_snap c') x y z /\
    (lt x (size (c_snap c)) -> found_under (c_snap c) w1 x) /\ (lt y (size (c_snap c)) -> found_under (c_snap c) w2 y) /\
    (lt z (size (c_snap c)) -> found_under (c_snap c) w3 z) /\
    only_composition_of x (c_snap c) (c_snap c').
Proof.
  intros F D R E0 N RR O V1 V2 V3 S1 S2 S3. apply simple_is in S1, S2, S3.
  exact (spoken_definition cfg fuel F D c R command c' u c0 a b l r w1 w2 w3 E0 N RR O V1 V2 V3 S1 S2 S3).
Qed.
Print Assumptions C41_definitions_relate_what_the_words_name_partial.

(** ** The hypotheses are met *)
(** In the store of C58 (PropertiesAnswers.v), with [c] (63) and [d] (66) known and [z] not. *)
Definition pair_b (u : tree) : option (tree * tree) := match t_concept u with None => t_exp u | Some _ => None end.
Lemma pair_ok u l r : pair_b u = Some (l, r) -> pair_of u l r.
Proof. unfold pair_b, pair_of. destruct (t_concept u); [discriminate|auto]. Qed.
Definition word_b (t : tree) (w : text) : bool := match t with TLeaf v _ _ => text_eqb v w | _ => false end.
Lemma word_ok t w : word_b t w = true -> is_word t w.
Proof. destruct t as [v o k|]; [|discriminate]. cbn. destruct (text_eqb_spec v w) as [->|]; [|discriminate]. exists o, k. reflexivity. Qed.
Definition two_words_b (x : outcome (zres tree * ctx)) (w1 w2 : text) : bool :=
  match x with
  | Ok (Val u, _) =>
    match pair_b u with Some (_, ut) =>
    match pair_b ut with Some (t1, up) =>
    match pair_b up with Some (_, t2) => word_b t1 w1 && word_b t2 w2 | None => false end | None => false end | None => false end
  | _ => false
  end.
Lemma two_words_ok x w1 w2 : two_words_b x w1 w2 = true -> exists u c0, x = Ok (Val u, c0) /\ nested_words u w1 w2.
Proof.
  unfold two_words_b. destruct x as [[[u|e] c0]| | |]; try discriminate. intros H. exists u, c0. split; [reflexivity|].
  destruct (pair_b u) as [[ul ut]|] eqn:P1; [|discriminate]. destruct (pair_b ut) as [[t1 up]|] eqn:P2; [|discriminate].
  destruct (pair_b up) as [[uf t2]|] eqn:P3; [|discriminate]. apply andb_prop in H. destruct H as [H1 H2].
  exists ul, ut, t1, up, uf, t2. auto 10 using pair_ok, word_ok.
Qed.
Definition three_words_b (x : outcome (zres tree * ctx)) (w1 w2 w3 : text) : bool :=
  match x with
  | Ok (Val u, _) =>
    match pair_b u with Some (_, ut) =>
    match pair_b ut with Some (t1, up) =>
    match pair_b up with Some (_, uq) =>
    match pair_b uq with Some (t2, t3) => word_b t1 w1 && word_b t2 w2 && word_b t3 w3
    | None => false end | None => false end | None => false end | None => false end
  | _ => false
  end.
Lemma three_words_ok x w1 w2 w3 : three_words_b x w1 w2 w3 = true -> exists u c0, x = Ok (Val u, c0) /\ nested_three u w1 w2 w3.
Proof.
  unfold three_words_b. destruct x as [[[u|e] c0]| | |]; try discriminate. intros H. exists u, c0. split; [reflexivity|].
  destruct (pair_b u) as [[ul ut]|] eqn:P1; [|discriminate]. destruct (pair_b ut) as [[t1 up]|] eqn:P2; [|discriminate].
  destruct (pair_b up) as [[uf uq]|] eqn:P3; [|discriminate]. destruct (pair_b uq) as [[t2 t3]|] eqn:P4; [|discriminate].
  apply andb_prop in H. destruct H as [H H3]. apply andb_prop in H. destruct H as [H1 H2].
  exists ul, ut, t1, up, uf, uq, t2, t3. auto 10 using pair_ok, word_ok.
Qed.
Definition silent_b (r : outcome (text * ctx)) : bool := match r with Ok ([], _) => true | _ => false end.
Lemma silent_ok r : silent_b r = true -> exists c', r = Ok ([], c').
Proof. destruct r as [[[|] c']| | |]; try discriminate. eauto. Qed.
Definition unknown_b (s : snapshot) (w : text) : bool := match aget text_eqb w (string_map s) with None => true | Some _ => false end.
Lemma unknown_ok s w : unknown_b s w = true -> forall n, ~ found_under s w n.
Proof. unfold unknown_b. intros H n (str & comp & lab & A & _). rewrite A in H. discriminate H. Qed.
Definition undivided_b (s : snapshot) (n : nat) : bool :=
  match composition_of s n with Some _ => false | None => true end && negb (free_b s n).
Lemma undivided_ok s n : undivided_b s n = true -> (forall l r, ~ composed s n l r) /\ ~ leaf_variable s n FreeVariable.
Proof.
  intros H. apply andb_prop in H. destruct H as [H1 H2]. split.
  - intros l r C. apply composition_of_composed in C. rewrite C in H1. discriminate.
  - intros (k & red & L & K). unfold free_b in H2. rewrite L, K in H2. discriminate.
Qed.
Definition unlisted_b (s : snapshot) (n : nat) : bool := forallb (fun y => negb (existsb (Nat.eqb n) (listed_b s y))) (ids s).
Lemma unlisted_ok s n : unlisted_b s n = true -> forall y, ~ lists_reduction_from s y n.
Proof.
  intros H y (k & L & J). unfold unlisted_b in H. rewrite forallb_forall in H.
  specialize (H y). unfold listed_b, ids in H. rewrite L in H. apply lookup_lt in L.
  rewrite in_seq in H. specialize (H (conj (Nat.le_0_l _) L)). apply negb_true_iff in H.
  rewrite <- not_true_iff_false in H. apply H, existsb_exists. exists n. split; [exact J|apply Nat.eqb_refl].
Qed.
Lemma means_simple s w k : means s w k -> undivided_b s k = true -> simple s w.
Proof. intros (_ & _ & _ & U) H n X. rewrite (U n X). apply undivided_ok, H. Qed.
Lemma unknown_simple s w : unknown_b s w = true -> simple s w.
Proof. intros U n X. destruct (unknown_ok _ _ U n X). Qed.

Lemma chain_known : means_b (c_snap chain_context) (txt "c") 63 [62] && undivided_b (c_snap chain_context) 63 &&
  unlisted_b (c_snap chain_context) 63 && means_b (c_snap chain_context) (txt "d") 66 [65] && undivided_b (c_snap chain_context) 66 &&
  unknown_b (c_snap chain_context) (txt "z") = true.
Proof. vm_compute. reflexivity. Qed.

Definition plain_leaves_b (ts : list tree) : bool := forallb (fun t => negb (is_leaf_variable t)) ts.
Definition declare_z : text := txt "let (c (-> z))".
Definition declares_b (x : outcome (zres tree * ctx)) (r : outcome (text * ctx)) (p : option (tree * tree)) (w1 w2 : text) : bool :=
  two_words_b x w1 w2 && silent_b r && match p with Some (a, b) => plain_leaves_b [a; b] | None => false end.
Lemma declares_ok x r p w1 w2 : declares_b x r p w1 w2 = true ->
  exists u c0 a b c', x = Ok (Val u, c0) /\ nested_words u w1 w2 /\ p = Some (a, b) /\ is_leaf_variable a = false /\
    is_leaf_variable b = false /\ r = Ok ([], c').
Proof.
  intros H. unfold declares_b in H. apply andb_prop in H. destruct H as [H H3]. apply andb_prop in H. destruct H as [H1 H2].
  destruct (two_words_ok _ _ _ H1) as (u & c0 & E0 & N). destruct (silent_ok _ H2) as (c' & E). destruct p as [[a b]|]; [|discriminate].
  unfold plain_leaves_b, forallb in H3. rewrite andb_true_r in H3. apply andb_prop in H3. destruct H3 as [V1 V2]. apply negb_true_iff in V1, V2.
  exists u, c0, a, b, c'. auto 10.
Qed.
Lemma declare_z_checked :
  declares_b (ast_from_expression cfg0 fuel0 declare_z chain_context) (execute cfg0 fuel0 declare_z chain_context)
    (as_reduction chain_context "let (c (-> z))") (txt "c") (txt "z") = true.
Proof. vm_compute. reflexivity. Qed.
Lemma known_words : means (c_snap chain_context) (txt "c") 63 /\ simple (c_snap chain_context) (txt "c") /\
  (forall y, ~ lists_reduction_from (c_snap chain_context) y 63) /\ simple (c_snap chain_context) (txt "d") /\
  simple (c_snap chain_context) (txt "z").
Proof.
  generalize chain_known. generalize (c_snap chain_context). intros s K. do 5 (apply andb_prop in K; destruct K as [K ?]).
  pose proof (means_ok _ _ _ _ K) as M. split; [exact M|]. split; [eapply means_simple; eassumption|].
  split; [apply unlisted_ok; assumption|]. split; [eapply means_simple; [eapply means_ok; eassumption|assumption]|].
  apply unknown_simple; assumption.
Qed.
Example C59_case : exists u c0 a b c', fair cfg0 /\ dbg cfg0 = true /\ reachable true chain_context /\
  ast_from_expression cfg0 fuel0 declare_z chain_context = Ok (Val u, c0) /\ nested_words u (txt "c") (txt "z") /\
  reads_as_reduction cfg0 fuel0 chain_context declare_z a b /\ is_leaf_variable a = false /\ is_leaf_variable b = false /\
  simple (c_snap chain_context) (txt "c") /\ simple (c_snap chain_context) (txt "z") /\
  (forall n y, found_under (c_snap chain_context) (txt "c") n -> ~ lists_reduction_from (c_snap chain_context) y n) /\
  found_under (c_snap chain_context) (txt "c") 63 /\ execute cfg0 fuel0 declare_z chain_context = Ok ([], c').
Proof.
  destruct (declares_ok _ _ _ _ _ declare_z_checked) as (u & c0 & a & b & c' & E0 & N & A & V1 & V2 & E).
  apply as_reduction_ok in A. destruct known_words as (M & S1 & U & _ & S2).
  exists u, c0, a, b, c'. split; [exact fair0|]. split; [reflexivity|]. split; [exact (reachable_without _ _ _ chain_context_reachable)|].
  split; [exact E0|]. split; [exact N|]. split; [exact A|]. split; [exact V1|]. split; [exact V2|].
  split; [exact S1|]. split; [exact S2|].
  split; [|split; [apply M|exact E]]. intros n y X. rewrite (proj2 (proj2 (proj2 M)) n X). apply U.
Qed.

Definition define_d : text := txt "let (d (:= (c z)))".
Definition defines_b (x : outcome (zres tree * ctx)) (r : outcome (text * ctx)) (p : option (tree * tree)) (w1 w2 w3 : text) : bool :=
  three_words_b x w1 w2 w3 && silent_b r &&
  match p with
  | Some (a, b) => match t_exp b with Some (l, r) => plain_leaves_b [a; l; r] | None => false end
  | None => false
  end.
Lemma defines_ok x r p w1 w2 w3 : defines_b x r p w1 w2 w3 = true ->
  exists u c0 a b l r0 c', x = Ok (Val u, c0) /\ nested_three u w1 w2 w3 /\ p = Some (a, b) /\ t_exp b = Some (l, r0) /\
    is_leaf_variable a = false /\ is_leaf_variable l = false /\ is_leaf_variable r0 = false /\ r = Ok ([], c').
Proof.
  intros H. unfold defines_b in H. apply andb_prop in H. destruct H as [H H3]. apply andb_prop in H. destruct H as [H1 H2].
  destruct (three_words_ok _ _ _ _ H1) as (u & c0 & E0 & N). destruct (silent_ok _ H2) as (c' & E). destruct p as [[a b]|]; [|discriminate].
  destruct (t_exp b) as [[l r0]|] eqn:O; [|discriminate].
  unfold plain_leaves_b, forallb in H3. rewrite andb_true_r in H3. apply andb_prop in H3. destruct H3 as [V1 V2].
  apply andb_prop in V2. destruct V2 as [V2 V3]. apply negb_true_iff in V1, V2, V3.
  exists u, c0, a, b, l, r0, c'. auto 12.
Qed.
Lemma define_d_checked :
  defines_b (ast_from_expression cfg0 fuel0 define_d chain_context) (execute cfg0 fuel0 define_d chain_context)
    (as_definition chain_context "let (d (:= (c z)))") (txt "d") (txt "c") (txt "z") = true.
Proof. vm_compute. reflexivity. Qed.
Example C41_words_case : exists u c0 a b l r c', fair cfg0 /\ dbg cfg0 = true /\ reachable true chain_context /\
  ast_from_expression cfg0 fuel0 define_d chain_context = Ok (Val u, c0) /\ nested_three u (txt "d") (txt "c") (txt "z") /\
  reads_as_definition cfg0 fuel0 chain_context define_d a b /\ t_exp b = Some (l, r) /\
  is_leaf_variable a = false /\ is_leaf_variable l = false /\ is_leaf_variable r = false /\
  simple (c_snap chain_context) (txt "d") /\ simple (c_snap chain_context) (txt "c") /\ simple (c_snap chain_context) (txt "z") /\
  execute cfg0 fuel0 define_d chain_context = Ok ([], c').
Proof.
  destruct (defines_ok _ _ _ _ _ _ define_d_checked) as (u & c0 & a & b & l & r & c' & E0 & N & A & O & V1 & V2 & V3 & E).
  apply as_definition_ok in A. destruct known_words as (_ & S1 & _ & S2 & S3).
  exists u, c0, a, b, l, r, c'. split; [exact fair0|]. split; [reflexivity|]. split; [exact (reachable_without _ _ _ chain_context_reachable)|].
  auto 12.
Qed.

(** A question with the known word [c] and the new words [w] and [v]. *)
Definition ask_w : text := txt "(w (c v))".
Definition asked_b (x : outcome (zres tree * ctx)) (r : outcome (text * ctx)) : bool :=
  match x, r with
  | Ok (Val u, _), Ok (a, _) =>
    negb (text_eqb a []) && short a &&
    match tree_names u with
    | [(x, Some (Uncommitted _)); (y, Some (Committed k)); (z, Some (Uncommitted _))] =>
      text_eqb x (txt "w") && text_eqb y (txt "c") && text_eqb z (txt "v") && Nat.eqb k 63
    | _ => false
    end
  | _, _ => false
  end.
Lemma asked_ok x r : asked_b x r = true -> exists u c0 a c' i j, x = Ok (Val u, c0) /\ r = Ok (a, c') /\ a <> [] /\
  (forall e, a <> error_text e) /\
  tree_names u = [(txt "w", Some (Uncommitted i)); (txt "c", Some (Committed 63)); (txt "v", Some (Uncommitted j))].
Proof.
  unfold asked_b. destruct x as [[[u|] c0]| | |], r as [[a c']| | |]; try discriminate. intros H.
  apply andb_prop in H. destruct H as [H H3]. apply andb_prop in H. destruct H as [H1 H2].
  destruct (tree_names u) as [|[x [[?|i]|]] [|[y [[k|?]|]] [|[z [[?|j]|]] [|]]]] eqn:TN; try discriminate.
  apply andb_prop in H3. destruct H3 as [H3 K]. apply andb_prop in H3. destruct H3 as [H3 Z]. apply andb_prop in H3. destruct H3 as [X Y].
  destruct (text_eqb_spec x (txt "w")) as [->|]; [|discriminate]. destruct (text_eqb_spec y (txt "c")) as [->|]; [|discriminate].
  destruct (text_eqb_spec z (txt "v")) as [->|]; [|discriminate]. apply Nat.eqb_eq in K. subst k.
  exists u, c0, a, c', i, j. split; [reflexivity|]. split; [reflexivity|].
  split; [destruct (text_eqb_spec a []); [discriminate|assumption]|]. split; [exact (short_ok a H2)|exact TN].
Qed.
Lemma ask_w_checked : asked_b (ast_from_expression cfg0 fuel0 ask_w chain_context) (execute cfg0 fuel0 ask_w chain_context) = true.
Proof. vm_compute. reflexivity. Qed.
Example C60_case : exists u c0 a c' i j, fair cfg0 /\ dbg cfg0 = true /\ reachable true chain_context /\
  ast_from_expression cfg0 fuel0 ask_w chain_context = Ok (Val u, c0) /\
  execute cfg0 fuel0 ask_w chain_context = Ok (a, c') /\ a <> [] /\ (forall e, a <> error_text e) /\
  tree_names u = [(txt "w", Some (Uncommitted i)); (txt "c", Some (Committed 63)); (txt "v", Some (Uncommitted j))].
Proof.
  destruct (asked_ok _ _ ask_w_checked) as (u & c0 & a & c' & i & j & E0 & E & N1 & N2 & T).
  exists u, c0, a, c', i, j. split; [exact fair0|]. split; [reflexivity|].
  split; [exact (reachable_without _ _ _ chain_context_reachable)|]. auto 10.
Qed.
