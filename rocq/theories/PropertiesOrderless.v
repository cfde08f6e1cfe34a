(** C37: what does not depend on the iteration order of hash collections. *)
From Verif Require Import Start Snapshot Context StoreSpec NameSpec FrameSpec MapFacts AstFacts RangeFacts History
  Steps Sample Witness NameWitness Quiet Frames Reductions Declare Define StoreInv PropertiesFrames PropertiesReductions
  PropertiesDefine PropertiesOrder.
From Coq Require Import String List Bool PeanoNat Lia.
Import ListNotations.
Local Open Scope string_scope.

(** [s1] and [s2] say the same about the concepts of [s]. *)
Definition agree_about (s s1 s2 : snapshot) : Prop :=
  forall n, lookup s n <> None -> same_reduction s1 s2 n /\ same_composition s1 s2 n /\ same_text s1 s2 n.

Lemma same_text_trans s s1 s2 n : same_text s s1 n -> same_text s s2 n -> same_text s1 s2 n.
Proof. intros [A B] [C D]. split; intros x; split; intros H; [apply C, A, H|apply A, C, H|apply D, B, H|apply B, D, H]. Qed.
Lemma same_composition_trans s s1 s2 n : same_composition s s1 n -> same_composition s s2 n -> same_composition s1 s2 n.
Proof. intros A B l r. split; intros H; [apply B, A, H|apply A, B, H]. Qed.
Lemma same_reduction_trans s s1 s2 n : same_reduction s s1 n -> same_reduction s s2 n -> same_reduction s1 s2 n.
Proof. intros A B r. split; intros H; [apply B, A, H|apply A, B, H]. Qed.
Lemma reduces_alike s1 s2 x y : reduces s1 x y -> reduces s2 x y -> same_reduction s1 s2 x.
Proof. intros A B r. rewrite !reduces_at. apply reduces_at in A, B. rewrite A, B. tauto. Qed.
Lemma composed_one s x l r l' r' : composed s x l r -> composed s x l' r' -> l = l' /\ r = r'.
Proof. intros (c & f & v & o & L & E) (c' & f' & v' & o' & L' & E'). rewrite L in L'. injection L' as <-.
  rewrite E in E'. injection E'. auto. Qed.
Lemma composed_alike s1 s2 x l r : composed s1 x l r -> composed s2 x l r -> same_composition s1 s2 x.
Proof.
  intros A B l' r'. split; intros H.
  - destruct (composed_one _ _ _ _ _ _ A H). subst. exact B.
  - destruct (composed_one _ _ _ _ _ _ B H). subst. exact A.
Qed.

(** Two runs of one command from one context, with any two iteration orders.  If both are answered with
    something other than nothing and other than an error then they leave the same knowledge, names
    included.  Missing: that the answers are the same, which is refuted in PropertiesOrder.v. *)
Theorem C37_knowledge_after_a_query_partial bd c cfg1 cfg2 fuel1 fuel2 command r1 r2 c1 c2 :
  fair cfg1 -> fair cfg2 -> reachable bd c ->
  execute cfg1 fuel1 command c = Ok (r1, c1) -> execute cfg2 fuel2 command c = Ok (r2, c2) ->
  r1 <> [] -> r2 <> [] -> (forall e, r1 <> error_text e) -> (forall e, r2 <> error_text e) ->
  agree_about (c_snap c) (c_snap c1) (c_snap c2) /\
  forall n, lookup (c_snap c) n <> None -> same_label (c_snap c1) (c_snap c2) n.
Proof.
  intros F1 F2 R E1 E2 N1 N2 X1 X2.
  pose proof (C25_answered_query_keeps_meaning_partial _ _ _ _ _ _ _ F1 R E1 N1 X1) as M1.
  pose proof (C25_answered_query_keeps_meaning_partial _ _ _ _ _ _ _ F2 R E2 N2 X2) as M2.
  split.
  - intros n K. destruct (M1 n K) as (A1 & B1 & D1 & _). destruct (M2 n K) as (A2 & B2 & D2 & _).
    split; [|split]; [apply (same_reduction_trans (c_snap c))|apply (same_composition_trans (c_snap c))
      |apply (same_text_trans (c_snap c))]; assumption.
  - intros n K. destruct (M1 n K) as (_ & _ & _ & L1). destruct (M2 n K) as (_ & _ & _ & L2).
    intros t. split; intros H; [apply L2, L1, H|apply L1, L2, H].
Qed.
Print Assumptions C37_knowledge_after_a_query_partial.

(** If both accept the declaration `let a -> b`, and [a] and [b] are read alike, then they leave the same
    reductions, compositions, texts and kinds.  Missing: that one does not refuse what the other accepts,
    and names that go through [a]. *)
Theorem C37_knowledge_after_a_declaration_partial bd c cfg1 cfg2 fuel1 fuel2 command c1 c2 a1 b1 a2 b2 i j :
  fair cfg1 -> fair cfg2 -> reachable bd c ->
  reads_as_reduction cfg1 fuel1 c command a1 b1 -> reads_as_reduction cfg2 fuel2 c command a2 b2 ->
  t_key a1 <> t_key b1 -> t_key a2 <> t_key b2 ->
  t_concept a1 = Some i -> t_concept a2 = Some i -> t_concept b1 = Some j -> t_concept b2 = Some j ->
  execute cfg1 fuel1 command c = Ok ([], c1) -> execute cfg2 fuel2 command c = Ok ([], c2) ->
  agree_about (c_snap c) (c_snap c1) (c_snap c2) /\
  reduces (c_snap c1) (place (c_snap c) i) (place (c_snap c) j) /\
  reduces (c_snap c2) (place (c_snap c) i) (place (c_snap c) j).
Proof.
  intros F1 F2 R A1 A2 K1 K2 I1 I2 J1 J2 E1 E2.
  destruct (C19_declared_reduction_takes_effect_partial _ _ _ _ _ _ _ _ _ F1 R A1 K1 E1)
    as [(e & H & _)|(_ & x1 & y1 & R1 & X1 & Y1 & O1)]; [destruct (error_not_empty e); congruence|].
  destruct (C19_declared_reduction_takes_effect_partial _ _ _ _ _ _ _ _ _ F2 R A2 K2 E2)
    as [(e & H & _)|(_ & x2 & y2 & R2 & X2 & Y2 & O2)]; [destruct (error_not_empty e); congruence|].
  rewrite (X1 _ I1), (Y1 _ J1) in *. rewrite (X2 _ I2), (Y2 _ J2) in *. split; [|split; assumption].
  intros n K. destruct (O1 n K) as (P1 & B1 & D1 & _). destruct (O2 n K) as (P2 & B2 & D2 & _).
  split; [|split].
  - destruct (Nat.eq_dec n (place (c_snap c) i)) as [->|N].
    + eapply reduces_alike; eassumption.
    + apply (same_reduction_trans (c_snap c)); auto.
  - apply (same_composition_trans (c_snap c)); auto.
  - apply (same_text_trans (c_snap c)); auto.
Qed.
Print Assumptions C37_knowledge_after_a_declaration_partial.

(** The same for the definition `let n := l r` of a symbol. *)
Theorem C37_knowledge_after_a_definition_partial
    bd c cfg1 cfg2 fuel1 fuel2 command c1 c2 n1 n2 o1 o2 l1 l2 r1 r2 i j k :
  fair cfg1 -> fair cfg2 -> reachable bd c ->
  reads_as_definition cfg1 fuel1 c command n1 o1 -> reads_as_definition cfg2 fuel2 c command n2 o2 ->
  t_exp n1 = None -> t_exp n2 = None -> t_exp o1 = Some (l1, r1) -> t_exp o2 = Some (l2, r2) ->
  t_concept n1 = Some i -> t_concept n2 = Some i ->
  t_concept l1 = Some j -> t_concept l2 = Some j -> t_concept r1 = Some k -> t_concept r2 = Some k ->
  execute cfg1 fuel1 command c = Ok ([], c1) -> execute cfg2 fuel2 command c = Ok ([], c2) ->
  agree_about (c_snap c) (c_snap c1) (c_snap c2) /\
  composed (c_snap c1) (place (c_snap c) i) (place (c_snap c) j) (place (c_snap c) k) /\
  composed (c_snap c2) (place (c_snap c) i) (place (c_snap c) j) (place (c_snap c) k).
Proof.
  intros F1 F2 R A1 A2 L1 L2 X1 X2 I1 I2 J1 J2 K1 K2 E1 E2.
  destruct (C41_definition_takes_effect_partial _ _ _ _ _ _ _ _ _ _ _ _ F1 R A1 L1 I1 X1 E1)
    as [(e & H & _)|(_ & x1 & y1 & R1 & P1 & Q1 & O1)]; [destruct (error_not_empty e); congruence|].
  destruct (C41_definition_takes_effect_partial _ _ _ _ _ _ _ _ _ _ _ _ F2 R A2 L2 I2 X2 E2)
    as [(e & H & _)|(_ & x2 & y2 & R2 & P2 & Q2 & O2)]; [destruct (error_not_empty e); congruence|].
  rewrite (P1 _ J1), (Q1 _ K1) in *. rewrite (P2 _ J2), (Q2 _ K2) in *. split; [|split; assumption].
  intros n K. destruct (O1 n K) as (B1 & S1 & D1 & _). destruct (O2 n K) as (B2 & S2 & D2 & _).
  split; [|split].
  - apply (same_reduction_trans (c_snap c)); auto.
  - destruct (Nat.eq_dec n (place (c_snap c) i)) as [->|N].
    + eapply composed_alike; eassumption.
    + apply (same_composition_trans (c_snap c)); auto.
  - apply (same_text_trans (c_snap c)); auto.
Qed.
Print Assumptions C37_knowledge_after_a_definition_partial.

(** Deciding what a command is read as, in a given order. *)
Definition reading (cfg : config) (c : ctx) (command : string) (op : cct) : option (tree * tree) :=
  match read_tree cfg fuel0 (txt command) c with
  | Ok (Val t, _) =>
    match t_concept t, t_exp t with
    | None, Some (tl, ta) =>
      match t_exp ta with
      | Some (a, p) =>
        match t_exp p with
        | Some (ar, b) =>
          if is_built_in (c_snap c) tl CLet && is_built_in (c_snap c) ar op then Some (a, b) else None
        | None => None
        end
      | None => None
      end
    | _, _ => None
    end
  | _ => None
  end.
Lemma reading_ok cfg c command op a b :
  reading cfg c command op = Some (a, b) ->
  exists t c1 tl ta p ar nl na,
    read_tree cfg fuel0 (txt command) c = Ok (Val t, c1) /\
    t_concept t = None /\ t_exp t = Some (tl, ta) /\ t_exp ta = Some (a, p) /\ t_exp p = Some (ar, b) /\
    t_concept tl = Some (Committed nl) /\ built_in (c_snap c) nl CLet /\
    t_concept ar = Some (Committed na) /\ built_in (c_snap c) na op.
Proof.
  unfold reading. destruct (read_tree _ _ _ _) as [[[t|e] c1]| | |] eqn:R; try discriminate.
  destruct (t_concept t) eqn:T1; [discriminate|]. destruct (t_exp t) as [[tl ta]|] eqn:T2; [|discriminate].
  destruct (t_exp ta) as [[a' p]|] eqn:T3; [|discriminate]. destruct (t_exp p) as [[ar b']|] eqn:T4; [|discriminate].
  destruct (is_built_in _ tl _ && is_built_in _ ar _)%bool eqn:B; [|discriminate].
  apply andb_prop in B. destruct B as [B1 B2].
  apply is_built_in_ok in B1, B2. destruct B1 as (nl & N1 & B1). destruct B2 as (na & N2 & B2).
  intros E. injection E as -> ->. exists t, c1, tl, ta, p, ar, nl, na. auto 10.
Qed.
Definition concept_is (t : tree) (i : cid) : bool := option_eqb cid_eqb (t_concept t) (Some i).
Lemma concept_is_ok t i : concept_is t i = true -> t_concept t = Some i.
Proof. unfold concept_is. destruct (t_concept t); cbn; [|discriminate]. destruct (cid_eqb_spec c i); congruence. Qed.

(** `let foo -> true` in a new context, with the collections iterated forwards and backwards. *)
Definition declares (cfg : config) : bool :=
  match reading cfg context0 "let foo -> true" CReduction with
  | Some (a, b) => concept_is a (Uncommitted 2) && concept_is b (Committed 14) && negb (key_eqb (t_key a) (t_key b))
  | None => false
  end && answers [] (execute cfg fuel0 (txt "let foo -> true") context0).
Lemma declares_checked : declares cfg0 && declares backwards = true.
Proof. vm_compute. reflexivity. Qed.
Lemma declares_ok cfg : declares cfg = true ->
  exists a b c1, reads_as_reduction cfg fuel0 context0 (txt "let foo -> true") a b /\ t_key a <> t_key b /\
    t_concept a = Some (Uncommitted 2) /\ t_concept b = Some (Committed 14) /\
    execute cfg fuel0 (txt "let foo -> true") context0 = Ok ([], c1).
Proof.
  unfold declares. destruct (reading _ _ _ _) as [[a b]|] eqn:A; [|discriminate]. intros K.
  apply andb_prop in K. destruct K as [K K4]. apply andb_prop in K. destruct K as [K K3].
  apply andb_prop in K. destruct K as [K1 K2]. apply answers_eq in K4. destruct K4 as [c1 K4].
  exists a, b, c1. split; [exact (reading_ok _ _ _ _ _ _ A)|]. split.
  { destruct (key_eqb_spec (t_key a) (t_key b)); [discriminate|assumption]. }
  split; [|split]; [apply concept_is_ok..|]; assumption.
Qed.
Example C37_declaration_applies :
  exists c1 c2, execute cfg0 fuel0 (txt "let foo -> true") context0 = Ok ([], c1) /\
    execute backwards fuel0 (txt "let foo -> true") context0 = Ok ([], c2) /\
    agree_about (c_snap context0) (c_snap c1) (c_snap c2) /\
    reduces (c_snap c1) (place (c_snap context0) (Uncommitted 2)) 14 /\
    reduces (c_snap c2) (place (c_snap context0) (Uncommitted 2)) 14.
Proof.
  pose proof declares_checked as K. apply andb_prop in K. destruct K as [K1 K2].
  apply declares_ok in K1, K2. destruct K1 as (a1 & b1 & c1 & A1 & N1 & I1 & J1 & E1).
  destruct K2 as (a2 & b2 & c2 & A2 & N2 & I2 & J2 & E2). exists c1, c2. split; [exact E1|]. split; [exact E2|].
  exact (C37_knowledge_after_a_declaration_partial true context0 cfg0 backwards fuel0 fuel0 _ c1 c2 a1 b1 a2 b2 _ _
           fair0 backwards_fair context0_reachable A1 A2 N1 N2 I1 I2 J1 J2 E1 E2).
Qed.

(** `let both := true false`. *)
Definition defines (cfg : config) : bool :=
  match reading cfg context0 "let both := true false" CDefine with
  | Some (n, o) =>
    match t_exp n, t_exp o with
    | None, Some (l, r) => concept_is n (Uncommitted 2) && concept_is l (Committed 14) && concept_is r (Committed 17)
    | _, _ => false
    end
  | None => false
  end && answers [] (execute cfg fuel0 (txt "let both := true false") context0).
Lemma defines_checked : defines cfg0 && defines backwards = true.
Proof. vm_compute. reflexivity. Qed.
Lemma defines_ok cfg : defines cfg = true ->
  exists n o l r c1, reads_as_definition cfg fuel0 context0 (txt "let both := true false") n o /\
    t_exp n = None /\ t_exp o = Some (l, r) /\ t_concept n = Some (Uncommitted 2) /\
    t_concept l = Some (Committed 14) /\ t_concept r = Some (Committed 17) /\
    execute cfg fuel0 (txt "let both := true false") context0 = Ok ([], c1).
Proof.
  unfold defines. destruct (reading _ _ _ _) as [[n o]|] eqn:A; [|discriminate].
  destruct (t_exp n) eqn:X; [discriminate|]. destruct (t_exp o) as [[l r]|] eqn:Y; [|discriminate]. intros K.
  apply andb_prop in K. destruct K as [K K4]. apply andb_prop in K. destruct K as [K K3].
  apply andb_prop in K. destruct K as [K1 K2]. apply answers_eq in K4. destruct K4 as [c1 K4].
  exists n, o, l, r, c1. split; [exact (reading_ok _ _ _ _ _ _ A)|]. split; [exact X|]. split; [exact Y|].
  split; [|split; [|split]]; [apply concept_is_ok..|]; assumption.
Qed.
Example C37_definition_applies :
  exists c1 c2, execute cfg0 fuel0 (txt "let both := true false") context0 = Ok ([], c1) /\
    execute backwards fuel0 (txt "let both := true false") context0 = Ok ([], c2) /\
    agree_about (c_snap context0) (c_snap c1) (c_snap c2) /\
    composed (c_snap c1) (place (c_snap context0) (Uncommitted 2)) 14 17 /\
    composed (c_snap c2) (place (c_snap context0) (Uncommitted 2)) 14 17.
Proof.
  pose proof defines_checked as K. apply andb_prop in K. destruct K as [K1 K2].
  apply defines_ok in K1, K2. destruct K1 as (n1 & o1 & l1 & r1 & c1 & A1 & X1 & Y1 & I1 & J1 & K1 & E1).
  destruct K2 as (n2 & o2 & l2 & r2 & c2 & A2 & X2 & Y2 & I2 & J2 & K2 & E2).
  exists c1, c2. split; [exact E1|]. split; [exact E2|].
  exact (C37_knowledge_after_a_definition_partial true context0 cfg0 backwards fuel0 fuel0 _ c1 c2 n1 n2 o1 o2 l1 l2 r1 r2
           _ _ _ fair0 backwards_fair context0_reachable A1 A2 X1 X2 Y1 Y2 I1 I2 J1 J2 K1 K2 E1 E2).
Qed.

(** The question `a a` with the clashing rules of PropertiesOrder.v: different answers, same knowledge. *)
Example C37_query_applies :
  exists c c1 c2, reachable true c /\
    execute cfg0 fuel0 (txt "a a") c = Ok (txt "c", c1) /\ execute backwards fuel0 (txt "a a") c = Ok (txt "b", c2) /\
    agree_about (c_snap c) (c_snap c1) (c_snap c2).
Proof.
  destruct (session_witness _ _ clash_checked) as (rs & c & _ & R & K).
  unfold clash_check in K. apply andb_prop in K. destruct K as [K K3]. apply andb_prop in K.
  destruct K as [_ K2]. destruct (answers_eq _ _ K2) as [c1 E1]. destruct (answers_eq _ _ K3) as [c2 E2].
  exists c, c1, c2. split; [exact R|]. split; [exact E1|]. split; [exact E2|].
  refine (proj1 (C37_knowledge_after_a_query_partial true c cfg0 backwards fuel0 fuel0 _ _ _ c1 c2
           fair0 backwards_fair R E1 E2 _ _ _ _)); try discriminate; intros e H; apply (f_equal (@List.length _)) in H;
    (destruct e; try discriminate H); unfold error_text in H; rewrite !app_length in H; cbn in H; lia.
Qed.
