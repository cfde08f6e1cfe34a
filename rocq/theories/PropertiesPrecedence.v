(** How the recorded precedences group lists of symbols: C50 and C51. *)
From Verif Require Import Start Snapshot Search Context MapFacts AstFacts RangeFacts History Sample Witness Quiet Grouping Keeping Precedence
  PropertiesGrouping PropertiesKeeping.
From Coq Require Import String List Bool NArith PeanoNat Lia.
Import ListNotations.
Local Open Scope string_scope.

(** Parsing a list of tokens asks a number of questions, those of precedence and associativity
    being about its tokens.  If the precedences that are answered agree with a ranking of the
    concepts, and no token is found to be left-associative, the list is grouped by rank: it is
    cut before each of the tokens that bind weakest.
    Every list, context, ranking, hash order and fuel; debug builds. *)
Theorem C50_weakest_symbols_split cfg fuel rank ts c u c' :
  fair cfg -> dbg cfg = true -> parse_list cfg fuel ts c = Ok (Val u, c') ->
  exists es, asks cfg fuel c es c' /\ about ts es /\
    (agrees rank es -> no_left es -> by_rank cfg c rank ts u).
Proof.
  intros F D E. destruct (list_ranked cfg fuel F (combine_exp cfg fuel D) rank c _ ts c u c' (conj eq_refl eq_refl) E) as (es & A & B & K).
  exists es. split; [exact A|]. split; [exact B|]. intros H N. apply K. split; assumption.
Qed.
Print Assumptions C50_weakest_symbols_split.
(** The ranks leave no choice. *)
Theorem C50_ranks_determine_the_grouping cfg c rank ts u v :
  by_rank cfg c rank ts u -> by_rank cfg c rank ts v -> same_shape u v.
Proof. intros H K. exact (by_rank_shape cfg c rank ts u H v K). Qed.
Print Assumptions C50_ranks_determine_the_grouping.

(** ** The hypotheses are met *)
Definition kind_eqb (a b : leafkind) : bool :=
  match a, b with LConstant, LConstant | LVariable, LVariable | LQuantifier, LQuantifier => true | _, _ => false end.
Definition leaf_eqb (a b : tree) : bool :=
  match a, b with TLeaf s o k, TLeaf s' o' k' => text_eqb s s' && option_eqb cid_eqb o o' && kind_eqb k k' | _, _ => false end.
Lemma leaf_eqb_ok a b : leaf_eqb a b = true -> a = b.
Proof.
  destruct a as [s o k|], b as [s' o' k'|]; try discriminate. cbn [leaf_eqb]. intros E. apply andb_prop in E. destruct E as [E E3].
  apply andb_prop in E. destruct E as [E1 E2]. destruct (text_eqb_spec s s') as [->|]; [|discriminate E1].
  assert (o = o') as ->.
  { destruct o as [x|], o' as [y|]; try discriminate E2; [|reflexivity]. cbn in E2. destruct (cid_eqb_spec x y) as [->|]; [reflexivity|discriminate E2]. }
  destruct k, k'; try discriminate E3; reflexivity.
Qed.
Definition mentioned_b (c : ctx) (x : cid) : bool :=
  match concrete_concept_id cfg0 (c_snap c) (c_delta c) CPrecedes with
  | Ok (Some p) =>
    match read_concept cfg0 (c_snap c) (c_delta c) p with
    | Ok m =>
      existsb (fun '(y, comp) =>
        cid_eqb x y ||
        match read_concept cfg0 (c_snap c) (c_delta c) comp with
        | Ok m' => existsb (fun '(z, _) => cid_eqb x z) (m_iter_hand_of cfg0 m' HRight)
        | _ => false
        end) (m_iter_hand_of cfg0 m HLeft)
    | _ => false
    end
  | _ => false
  end.
Lemma mentioned_ok c x : mentioned_b c x = true <-> mentioned cfg0 c x.
Proof.
  unfold mentioned_b, mentioned. split.
  - destruct (concrete_concept_id _ _ _ _) as [[p|]| | |] eqn:P; try discriminate.
    destruct (read_concept _ _ _ p) as [m| | |] eqn:M; try discriminate. intros E. apply existsb_exists in E.
    destruct E as ([y comp] & I & E). exists p, m, y, comp. split; [reflexivity|]. split; [exact M|]. split; [exact I|].
    apply orb_prop in E. destruct E as [E|E]; [left; destruct (cid_eqb_spec x y); [assumption|discriminate E]|right].
    destruct (read_concept _ _ _ comp) as [m'| | |]; try discriminate E. apply existsb_exists in E. destruct E as ([z w] & J & E).
    exists m', w. split; [reflexivity|]. destruct (cid_eqb_spec x z) as [->|]; [exact J|discriminate E].
  - intros (p & m & y & comp & -> & -> & I & K). apply existsb_exists. exists (y, comp). split; [exact I|].
    destruct K as [<-|(m' & w & -> & J)]; [destruct (cid_eqb_spec x x); [reflexivity|contradiction]|].
    apply orb_true_iff. right. apply existsb_exists. exists (x, w). split; [exact J|]. destruct (cid_eqb_spec x x); [reflexivity|contradiction].
Qed.
Definition leaf_mentioned (c : ctx) (t : tree) : bool := match t_concept t with Some x => mentioned_b c x | None => false end.
Definition weak_b (c : ctx) (rank : cid -> nat) (ts : list tree) (t : tree) : bool :=
  match t_concept t with
  | Some x => mentioned_b c x &&
    forallb (fun s => match t_concept s with Some y => negb (mentioned_b c y) || Nat.leb (rank x) (rank y) | None => true end) ts
  | None => false
  end || negb (existsb (leaf_mentioned c) ts).
Lemma weak_ok c rank ts t : In t ts -> (weak_b c rank ts t = true <-> weakest cfg0 c rank ts t).
Proof.
  intros I. unfold weak_b, weakest. rewrite orb_true_iff. split.
  - intros [E|E]; (split; [exact I|]).
    + left. destruct (t_concept t) as [x|]; [|discriminate E]. apply andb_prop in E. destruct E as [E1 E2].
      exists x. split; [reflexivity|]. split; [now apply mentioned_ok|]. intros s y S Y M.
      apply (proj1 (forallb_forall _ _) E2) in S. rewrite Y in S. apply mentioned_ok in M. rewrite M in S. now apply Nat.leb_le.
    + right. intros s y S Y M. apply negb_true_iff in E. assert (existsb (leaf_mentioned c) ts = true); [|congruence].
      apply existsb_exists. exists s. split; [exact S|]. unfold leaf_mentioned. rewrite Y. now apply mentioned_ok.
  - intros [_ [(x & X & M & L)|N]]; [left|right].
    + rewrite X. apply mentioned_ok in M. rewrite M. apply forallb_forall. intros s S. destruct (t_concept s) as [y|] eqn:Y; [|reflexivity].
      destruct (mentioned_b c y) eqn:MY; [|reflexivity]. cbn. apply Nat.leb_le. apply mentioned_ok in MY. eapply L; eassumption.
    + apply negb_true_iff. destruct (existsb (leaf_mentioned c) ts) eqn:E; [|reflexivity]. apply existsb_exists in E.
      destruct E as (s & S & E). unfold leaf_mentioned in E. destruct (t_concept s) as [y|] eqn:Y; [|discriminate E].
      apply mentioned_ok in E. destruct (N s y S Y E).
Qed.
(** The ranking in which the given operator comes last. *)
Definition last_is (p : tree) (x : cid) : nat := match t_concept p with Some y => if cid_eqb x y then 0 else 1 | None => 1 end.
Fixpoint bools_eqb (a b : list bool) : bool :=
  match a, b with [], [] => true | x :: a, y :: b => Bool.eqb x y && bools_eqb a b | _, _ => false end.
Lemma bools_eqb_ok a : forall b, bools_eqb a b = true -> a = b.
Proof.
  induction a as [|x a IH]; intros [|y b] E; try discriminate E; [reflexivity|]. cbn in E. apply andb_prop in E. destruct E as [E1 E2].
  apply Bool.eqb_prop in E1. now rewrite E1, (IH b E2).
Qed.
Definition rank_check (c : ctx) (ts : list tree) (u : tree) : bool :=
  match ts with
  | [a; t; b; p; d; s; e] =>
    let weak l := map (weak_b c (last_is p) l) l in
    match t_exp u with Some (l, r) =>
    match t_exp l, t_exp r with Some (a', tb), Some (p', dse) =>
    match t_exp tb, t_exp dse with Some (t', b'), Some (d', se) =>
    match t_exp se with Some (s', e') =>
      leaf_eqb a a' && leaf_eqb t t' && leaf_eqb b b' && leaf_eqb p p' && leaf_eqb d d' && leaf_eqb s s' && leaf_eqb e e' &&
      bools_eqb (weak ts) [false; false; false; true; false; false; false] && bools_eqb (weak [a; t; b]) [false; true; false] &&
      bools_eqb (weak [p; d; s; e]) [true; false; false; false] && bools_eqb (weak [d; s; e]) [false; true; false]
    | None => false end | _, _ => false end | _, _ => false end | None => false end
  | _ => false
  end.
Lemma cut_two (weak : tree -> Prop) a t b : ~ weak a -> weak t -> ~ weak b -> cut weak [[a]; [t; b]].
Proof.
  intros A T B. split.
  - intros seg [<-|[<-|[]]]; [exists a, []|exists t, [b]]; (split; [reflexivity|]); intros s I; [destruct I|].
    destruct I as [<-|[]]. exact B.
  - intros seg [<-|[]]. exists t, [b]. auto.
Qed.
Lemma rank_infix c rank a t b u v : map (weak_b c rank [a; t; b]) [a; t; b] = [false; true; false] ->
  t_exp u = Some (a, v) -> t_exp v = Some (t, b) -> by_rank cfg0 c rank [a; t; b] u.
Proof.
  intros W E1 E2. injection W as WA WT WB.
  apply (RankCut _ _ _ [[a]; [t; b]] [a; v] u); [cbn; lia|cbn; lia| | |].
  - cbn [concat app]. apply cut_two; rewrite <- weak_ok by (cbn; auto); congruence.
  - constructor; [constructor|]. constructor; [now apply RankTwo|constructor].
  - eapply GroupMore; [constructor|exact E1].
Qed.
Lemma rank_checked c ts u : rank_check c ts u = true -> exists rank, by_rank cfg0 c rank ts u.
Proof.
  unfold rank_check. destruct ts as [|a [|t [|b [|p [|d [|s [|e [|x ts]]]]]]]]; try discriminate.
  set (ts := [a; t; b; p; d; s; e]). cbv zeta.
  destruct (t_exp u) as [[l r]|] eqn:U; [|discriminate]. destruct (t_exp l) as [[a' tb]|] eqn:L; [|discriminate].
  destruct (t_exp r) as [[p' dse]|] eqn:R; [|discriminate]. destruct (t_exp tb) as [[t' b']|] eqn:TB; [|discriminate].
  destruct (t_exp dse) as [[d' se]|] eqn:DSE; [|discriminate]. destruct (t_exp se) as [[s' e']|] eqn:SE; [|discriminate].
  intros K. repeat match type of K with (_ && _)%bool = true => apply andb_prop in K; destruct K as [K ?K] end.
  repeat match goal with H : leaf_eqb _ _ = true |- _ => apply leaf_eqb_ok in H; symmetry in H; subst end.
  repeat match goal with H : bools_eqb _ _ = true |- _ => apply bools_eqb_ok in H end.
  match goal with H : map _ ts = _ |- _ => rename H into W end.
  match goal with H : map _ [p; d; s; e] = _ |- _ => rename H into WP end.
  exists (last_is p). change ts with (concat [[a; t; b]; [p; d; s; e]]).
  apply (RankCut _ _ _ _ [l; r]); [cbn; lia|cbn; lia| | |].
  - change (concat [[a; t; b]; [p; d; s; e]]) with ts. unfold ts in W. cbn [map] in W. fold ts in W. injection W as W1 W2 W3 W4 W5 W6 W7.
    assert (N : forall x, In x ts -> weak_b c (last_is p) ts x = false -> ~ weakest cfg0 c (last_is p) ts x).
    { intros x I E H. apply weak_ok in H; [congruence|exact I]. }
    split.
    + intros seg [<-|[<-|[]]]; [exists a, [t; b]|exists p, [d; s; e]]; (split; [reflexivity|]); intros x I; apply N;
        repeat (destruct I as [<-|I]; [solve [assumption|unfold ts; cbn; auto 8]|]); destruct I.
    + intros seg [<-|[]]. exists p, [d; s; e]. split; [reflexivity|]. apply weak_ok; [unfold ts; cbn; auto 8|exact W4].
  - constructor; [eapply rank_infix; eassumption|]. constructor; [|constructor].
    cbn [map] in WP. injection WP as P1 P2 P3 P4.
    eapply RankHead; [apply weak_ok; [now left|exact P1]| |eapply rank_infix; eassumption|exact R].
    intros x I H. rewrite <- weak_ok in H by (right; exact I). destruct I as [<-|[<-|[<-|[]]]]; congruence.
  - eapply GroupMore; [constructor|exact U].
Qed.
Definition answer_is (a b : tree) (r : cct) (c : ctx) : bool :=
  match t_concept a, t_concept b with
  | Some x, Some y => match precedes cfg0 fuel0 x y c with Ok (Val (Some r'), _) => cct_eqb r r' | _ => false end
  | _, _ => false
  end.
Lemma answer_is_ok a b r c : answer_is a b r c = true ->
  exists x y c', t_concept a = Some x /\ t_concept b = Some y /\ precedes cfg0 fuel0 x y c = Ok (Val (Some r), c').
Proof.
  unfold answer_is. destruct (t_concept a) as [x|]; [|discriminate]. destruct (t_concept b) as [y|]; [|discriminate].
  destruct (precedes cfg0 fuel0 x y c) as [[[[r'|]|] c']| | |] eqn:Q; intros E; try discriminate E. exists x, y, c'.
  split; [reflexivity|]. split; [reflexivity|]. rewrite Q. destruct (cct_eqb_spec r r') as [->|]; [reflexivity|discriminate E].
Qed.
Definition ranks_check (x : outcome (zres (list tree) * ctx)) : bool :=
  match x with
  | Ok (Val ts, c) =>
    match ts with
    | [_; t; _; p; _; _; _] => answer_is t p CTrue c && answer_is p t CFalse c
    | _ => false
    end &&
    match parse_list cfg0 fuel0 ts c with
    | Ok (Val u, _) => rank_check c ts u
    | _ => false
    end
  | _ => false
  end.
(** Seven tokens, two operators of which one precedes the other. *)
Definition rank_commands := ["let ((times (precedes plus)) (-> true))"; "let ((plus (precedes times)) (-> false))"].
Definition rank_text := "a times b plus c times d".
Lemma ranks_checked :
  on_session (run_session cfg0 fuel0 (map txt rank_commands) base_context) (fun _ c => ranks_check (tokens rank_text c)) = true.
Proof. vm_compute. reflexivity. Qed.
Lemma ranks_ok x : ranks_check x = true -> exists ts c, x = Ok (Val ts, c) /\
  (exists t p c1 c2, In (Some t) (map t_concept ts) /\ In (Some p) (map t_concept ts) /\
     precedes cfg0 fuel0 t p c = Ok (Val (Some CTrue), c1) /\ precedes cfg0 fuel0 p t c = Ok (Val (Some CFalse), c2)) /\
  length ts = 7 /\ exists u c', parse_list cfg0 fuel0 ts c = Ok (Val u, c') /\ exists rank, by_rank cfg0 c rank ts u.
Proof.
  destruct x as [[[ts|] c]| | |]; try discriminate. unfold ranks_check. intros K. exists ts, c. split; [reflexivity|].
  apply andb_prop in K. destruct K as [K1 K2].
  assert (P : exists u c', parse_list cfg0 fuel0 ts c = Ok (Val u, c') /\ exists rank, by_rank cfg0 c rank ts u).
  { revert K2. generalize (parse_list cfg0 fuel0 ts c). intros [[[u|] c']| | |] K2; try discriminate K2. exists u, c'.
    split; [reflexivity|]. exact (rank_checked c ts u K2). }
  clear K2. destruct ts as [|a [|t [|b [|p [|d [|s [|e [|y ts]]]]]]]]; try discriminate K1. apply andb_prop in K1. destruct K1 as [A1 A2].
  apply answer_is_ok in A1, A2. destruct A1 as (x1 & y1 & c1 & X1 & Y1 & A1), A2 as (y2 & x2 & c2 & Y2 & X2 & A2).
  rewrite X1 in X2. rewrite Y1 in Y2. injection X2 as <-. injection Y2 as <-.
  split; [|split; [reflexivity|exact P]]. exists x1, y1, c1, c2. cbn [map In]. rewrite X1, Y1. auto 8.
Qed.
Example C50_case :
  exists c ts c1 u c2 rank, reachable true c /\ tokens rank_text c = Ok (Val ts, c1) /\ length ts = 7 /\
    (exists t p d d', In (Some t) (map t_concept ts) /\ In (Some p) (map t_concept ts) /\
       precedes cfg0 fuel0 t p c1 = Ok (Val (Some CTrue), d) /\ precedes cfg0 fuel0 p t c1 = Ok (Val (Some CFalse), d')) /\
    parse_list cfg0 fuel0 ts c1 = Ok (Val u, c2) /\ by_rank cfg0 c1 rank ts u /\
    exists es, asks cfg0 fuel0 c1 es c2 /\ about ts es.
Proof.
  destruct (on_session_ok _ _ ranks_checked) as (rs & c & Er & K). apply ranks_ok in K.
  destruct K as (ts & c1 & T & A & L & u & c2 & P & rank & B). exists c, ts, c1, u, c2, rank.
  split; [exact (reachable_session cfg0 fuel0 fair0 _ base_context _ c (reach_base true) Er)|].
  split; [exact T|]. split; [exact L|]. split; [exact A|]. split; [exact P|]. split; [exact B|].
  destruct (C50_weakest_symbols_split cfg0 fuel0 rank ts c1 u c2 fair0 eq_refl P) as (es & E1 & E2 & _). eauto.
Qed.

(** ** C51: chains of an operator *)
Lemma shape_words u v : same_shape u v -> tree_words u = tree_words v.
Proof.
  intros S. induction S as [|u v l r l' r' E1 E2 S1 IH1 S2 IH2]; [reflexivity|].
  destruct u, v; try discriminate E1; try discriminate E2. injection E1 as <- <-. injection E2 as <- <-.
  unfold tree_words in *. cbn [tree_symbols]. rewrite !map_app. congruence.
Qed.
Lemma shape_exp u v l r : same_shape u v -> t_exp v = Some (l, r) -> exists l' r', t_exp u = Some (l', r') /\ same_shape l' l /\ same_shape r' r.
Proof.
  intros S E. destruct S as [t|u v l1 r1 l2 r2 E1 E2 S1 S2].
  - exists l, r. split; [exact E|]. split; constructor.
  - rewrite E2 in E. injection E as <- <-. eauto.
Qed.
Lemma pair_exp l r : t_exp (new_pair l r) = Some (l, r).
Proof. unfold new_pair, branch. now destruct (pair_vars l r). Qed.
(** Whenever two operators that bind weakest occur in a row, each of them is grouped with what
    follows it: [a p b q d] is read as [(a ((p b) (q d)))]. *)
Theorem C51_chains_are_split cfg c rank a p b q d u :
  by_rank cfg c rank [a; p; b; q; d] u ->
  weakest cfg c rank [a; p; b; q; d] p -> weakest cfg c rank [a; p; b; q; d] q ->
  ~ weakest cfg c rank [a; p; b; q; d] a -> ~ weakest cfg c rank [a; p; b; q; d] b -> ~ weakest cfg c rank [a; p; b; q; d] d ->
  exists l r x y, t_exp u = Some (l, r) /\ t_exp r = Some (x, y) /\ tree_words l = tree_words a /\
    tree_words x = (tree_words p ++ tree_words b)%list /\ tree_words y = (tree_words q ++ tree_words d)%list.
Proof.
  intros B P Q A B' D.
  assert (K : by_rank cfg c rank [a; p; b; q; d] (new_pair a (new_pair (new_pair p b) (new_pair q d)))).
  { apply (RankCut _ _ _ [[a]; [p; b]; [q; d]] [a; new_pair p b; new_pair q d]); [cbn; lia|cbn; lia| | |].
    - cbn [concat app]. split.
      + intros seg [<-|[<-|[<-|[]]]]; [exists a, []|exists p, [b]|exists q, [d]]; (split; [reflexivity|]); intros s I;
          repeat (destruct I as [<-|I]; [assumption|]); destruct I.
      + intros seg [<-|[<-|[]]]; [exists p, [b]|exists q, [d]]; auto.
    - repeat (constructor; [first [apply RankOne|apply RankTwo, pair_exp]|]). constructor.
    - eapply GroupMore; [eapply GroupMore; [constructor|apply pair_exp]|apply pair_exp]. }
  pose proof (by_rank_shape _ _ _ _ _ B _ K) as S. destruct (shape_exp _ _ _ _ S (pair_exp _ _)) as (l & r & E1 & S1 & S2).
  destruct (shape_exp _ _ _ _ S2 (pair_exp _ _)) as (x & y & E2 & S3 & S4). exists l, r, x, y.
  assert (W : forall s t, tree_words (new_pair s t) = (tree_words s ++ tree_words t)%list).
  { intros s t. unfold tree_words, new_pair, branch. destruct (pair_vars s t). cbn [tree_symbols]. apply map_app. }
  split; [exact E1|]. split; [exact E2|]. split; [exact (shape_words _ _ S1)|].
  rewrite (shape_words _ _ S3), (shape_words _ _ S4), !W. auto.
Qed.
Print Assumptions C51_chains_are_split.
(** After [plus] is given a precedence, [a plus b plus c] is read as [(a ((plus b) (plus c)))]. *)
Definition chain_check (x : outcome (zres tree * ctx)) : bool :=
  match x with
  | Ok (Val u, _) =>
    match t_exp u with Some (l, r) => match t_exp r with Some (x, y) =>
      texts_eqb (tree_words l) [txt "a"] && texts_eqb (tree_words x) (map txt ["plus"; "b"]) && texts_eqb (tree_words y) (map txt ["plus"; "c"])
    | None => false end | None => false end
  | _ => false
  end.
Lemma chain_ok x : chain_check x = true -> exists u c' l r y z, x = Ok (Val u, c') /\ t_exp u = Some (l, r) /\ t_exp r = Some (y, z) /\
  tree_words l = [txt "a"] /\ tree_words y = map txt ["plus"; "b"] /\ tree_words z = map txt ["plus"; "c"].
Proof.
  destruct x as [[[u|] c']| | |]; try discriminate. unfold chain_check. destruct (t_exp u) as [[l r]|] eqn:U; [|discriminate].
  destruct (t_exp r) as [[y z]|] eqn:R; [|discriminate]. intros K. apply andb_prop in K. destruct K as [K K3]. apply andb_prop in K. destruct K as [K1 K2].
  apply texts_eqb_ok in K1, K2, K3. exists u, c', l, r, y, z. auto 8.
Qed.
Lemma chain_checked :
  on_session (run_session cfg0 fuel0 (map txt rank_commands) base_context)
    (fun _ c => chain_check (ast_from_expression cfg0 fuel0 (txt "a plus b plus c") c)) = true.
Proof. vm_compute. reflexivity. Qed.
Theorem C51_chained_operators_refuted :
  exists c u c' l r y z, reachable true c /\
    ast_from_expression cfg0 fuel0 (txt "a plus b plus c") c = Ok (Val u, c') /\ t_exp u = Some (l, r) /\ t_exp r = Some (y, z) /\
    tree_words l = [txt "a"] /\ tree_words y = map txt ["plus"; "b"] /\ tree_words z = map txt ["plus"; "c"].
Proof.
  destruct (on_session_ok _ _ chain_checked) as (rs & c & Er & K). apply chain_ok in K.
  destruct K as (u & c' & l & r & y & z & K). exists c, u, c', l, r, y, z.
  split; [exact (reachable_session cfg0 fuel0 fair0 _ base_context _ c (reach_base true) Er)|exact K].
Qed.
Print Assumptions C51_chained_operators_refuted.
Definition split_check (x : outcome (zres (list tree) * ctx)) : bool :=
  match x with
  | Ok (Val ts, c) =>
    match ts, parse_list cfg0 fuel0 ts c with
    | [a; p; b; q; d], Ok (Val u, _) =>
      bools_eqb (map (weak_b c (last_is p) ts) ts) [false; true; false; true; false] &&
      match t_exp u with Some (a', r) => match t_exp r with Some (x, y) => match t_exp x, t_exp y with Some (p', b'), Some (q', d') =>
        leaf_eqb a a' && leaf_eqb p p' && leaf_eqb b b' && leaf_eqb q q' && leaf_eqb d d'
      | _, _ => false end | None => false end | None => false end
    | _, _ => false
    end
  | _ => false
  end.
Lemma split_checked :
  on_session (run_session cfg0 fuel0 (map txt rank_commands) base_context) (fun _ c => split_check (tokens "a plus b plus c" c)) = true.
Proof. vm_compute. reflexivity. Qed.
Lemma split_ok x : split_check x = true -> exists c a p b q d u c', x = Ok (Val [a; p; b; q; d], c) /\
  parse_list cfg0 fuel0 [a; p; b; q; d] c = Ok (Val u, c') /\ exists rank,
  by_rank cfg0 c rank [a; p; b; q; d] u /\ weakest cfg0 c rank [a; p; b; q; d] p /\ weakest cfg0 c rank [a; p; b; q; d] q /\
  ~ weakest cfg0 c rank [a; p; b; q; d] a /\ ~ weakest cfg0 c rank [a; p; b; q; d] b /\ ~ weakest cfg0 c rank [a; p; b; q; d] d.
Proof.
  destruct x as [[[ts|] c]| | |]; try discriminate. unfold split_check. destruct ts as [|a [|p [|b [|q [|d [|e ts]]]]]]; try discriminate.
  set (ts := [a; p; b; q; d]). destruct (parse_list cfg0 fuel0 ts c) as [[[u|] c']| | |] eqn:P; try discriminate.
  destruct (t_exp u) as [[a' r]|] eqn:U; [|now rewrite andb_false_r]. destruct (t_exp r) as [[x y]|] eqn:R; [|now rewrite andb_false_r].
  destruct (t_exp x) as [[p' b']|] eqn:X; [|now rewrite andb_false_r]. destruct (t_exp y) as [[q' d']|] eqn:Y; [|now rewrite andb_false_r].
  intros K. apply andb_prop in K. destruct K as [W K]. repeat match type of K with (_ && _)%bool = true => apply andb_prop in K; destruct K as [K ?K] end.
  repeat match goal with H : leaf_eqb _ _ = true |- _ => apply leaf_eqb_ok in H; symmetry in H; subst end.
  apply bools_eqb_ok in W. unfold ts in W at 2. cbn [map] in W. injection W as W1 W2 W3 W4 W5.
  exists c, a, p, b, q, d, u, c'. split; [reflexivity|]. split; [exact P|]. exists (last_is p). fold ts.
  assert (NW : forall x, In x ts -> weak_b c (last_is p) ts x = false -> ~ weakest cfg0 c (last_is p) ts x).
  { intros z I E H. apply weak_ok in H; [congruence|exact I]. }
  assert (A : ~ weakest cfg0 c (last_is p) ts a) by (apply NW; [cbn; auto|exact W1]).
  assert (A2 : weakest cfg0 c (last_is p) ts p) by (apply weak_ok; [cbn; auto|exact W2]).
  assert (A3 : ~ weakest cfg0 c (last_is p) ts b) by (apply NW; [cbn; auto|exact W3]).
  assert (A4 : weakest cfg0 c (last_is p) ts q) by (apply weak_ok; [cbn; auto 6|exact W4]).
  assert (A5 : ~ weakest cfg0 c (last_is p) ts d) by (apply NW; [cbn; auto 7|exact W5]).
  split; [|auto 8].
  apply (RankCut _ _ _ [[a]; [p; b]; [q; d]] [a; x; y]); [cbn; lia|cbn; lia| | |].
  - cbn [concat app]. fold ts. split.
    + intros seg [<-|[<-|[<-|[]]]]; [exists a, []|exists p, [b]|exists q, [d]]; (split; [reflexivity|]); intros s J;
        repeat (destruct J as [<-|J]; [assumption|]); destruct J.
    + intros seg [<-|[<-|[]]]; [exists p, [b]|exists q, [d]]; auto.
  - repeat (constructor; [first [apply RankOne|apply RankTwo; eassumption]|]). constructor.
  - eapply GroupMore; [eapply GroupMore; [constructor|exact R]|exact U].
Qed.
Example C51_case :
  exists c c1 a p b q d u c' rank, reachable true c /\ tokens "a plus b plus c" c = Ok (Val [a; p; b; q; d], c1) /\
    parse_list cfg0 fuel0 [a; p; b; q; d] c1 = Ok (Val u, c') /\ by_rank cfg0 c1 rank [a; p; b; q; d] u /\
    weakest cfg0 c1 rank [a; p; b; q; d] p /\ weakest cfg0 c1 rank [a; p; b; q; d] q /\
    ~ weakest cfg0 c1 rank [a; p; b; q; d] a /\ ~ weakest cfg0 c1 rank [a; p; b; q; d] b /\ ~ weakest cfg0 c1 rank [a; p; b; q; d] d /\
    exists l r x y, t_exp u = Some (l, r) /\ t_exp r = Some (x, y) /\ tree_words x = (tree_words p ++ tree_words b)%list.
Proof.
  destruct (on_session_ok _ _ split_checked) as (rs & c & Er & K). apply split_ok in K.
  destruct K as (c1 & a & p & b & q & d & u & c' & T & P & rank & B & W1 & W2 & N1 & N2 & N3). exists c, c1, a, p, b, q, d, u, c', rank.
  split; [exact (reachable_session cfg0 fuel0 fair0 _ base_context _ c (reach_base true) Er)|]. split; [exact T|]. split; [exact P|].
  split; [exact B|]. split; [exact W1|]. split; [exact W2|]. split; [exact N1|]. split; [exact N2|]. split; [exact N3|].
  destruct (C51_chains_are_split cfg0 c1 rank a p b q d u B W1 W2 N1 N2 N3) as (l & r & x & y & E1 & E2 & _ & E3 & _).
  exists l, r, x, y. auto.
Qed.
