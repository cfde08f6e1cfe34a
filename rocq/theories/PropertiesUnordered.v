(** C81: the order of questions does not matter; C75 and C76: other words and answers as questions, next to implications. *)
From Verif Require Import Lexer LexerSpec Start Snapshot Search Context StoreSpec StoreInv MapFacts AstSpec AstFacts StoreFacts RangeFacts History
  StoreLaws OneName NameSpec Names Displays SearchCaches Existence Wide Matches Implications Asking Links Keyed Sample Witness
  NameWitness Frames PropertiesAsking Shapes Unruled Answers Replies PropertiesAnswers Circular PropertiesCircular Concluded
  PropertiesConcluded Undecided PropertiesUndecided.
From Coq Require Import String List Bool PeanoNat Relations.
Import ListNotations.
Local Open Scope string_scope.

(** ** Specification *)
(** A word for a symbol about which nothing follows. *)
Definition settled_question (s : snapshot) (w : text) : Prop := exists v k z, means s w k /\ settles s k z v.

Lemma answers_at {A B} (R : A -> B -> Prop) w v : R w v -> forall l i, Forall (fun x => exists y, R x y) l -> nth_error l i = Some w ->
  exists names, Forall2 R l names /\ nth_error names i = Some v.
Proof.
  intros Rw. assert (Any : forall l, Forall (fun x => exists y, R x y) l -> exists names, Forall2 R l names).
  { induction 1 as [|x l (y & Xy) _ (names & IH)]; [exists []; constructor|exists (y :: names); now constructor]. }
  induction l as [|x l IH]; intros [|i] H E; try discriminate; inversion H as [|x' l' (y & Xy) Hl]; subst.
  - injection E as ->. destruct (Any _ Hl) as (names & Q). exists (v :: names). split; [now constructor|reflexivity].
  - destruct (IH _ Hl E) as (names & Q & Nv). exists (y :: names). split; [now constructor|exact Nv].
Qed.

(** Two sessions that start from the same context and ask about symbols about which nothing follows answer the same
    question alike, whatever was asked before it, in whatever order and how often, whatever the hash orders and the bounds on the
    work are.  For every history in which no composition is replaced or removed and both build modes. *)
Theorem C81_order_of_questions_does_not_matter b cfg1 cfg2 fuel1 fuel2 c symbols1 symbols2 answers1 answers2 c1 c2 i j w a1 a2 :
  fair cfg1 -> fair cfg2 -> dbg cfg1 = b -> dbg cfg2 = b -> reachable_with b (links_safe b) c -> c_cache c = empty_cache ->
  operators_named (c_snap c) ->
  Forall (settled_question (c_snap c)) symbols1 -> Forall (settled_question (c_snap c)) symbols2 ->
  run_session cfg1 fuel1 symbols1 c = Ok (answers1, c1) -> run_session cfg2 fuel2 symbols2 c = Ok (answers2, c2) ->
  nth_error symbols1 i = Some w -> nth_error answers1 i = Some a1 ->
  nth_error symbols2 j = Some w -> nth_error answers2 j = Some a2 -> a1 = a2.
Proof.
  intros F1 F2 D1 D2 R K ON S1 S2 E1 E2 W1 A1 W2 A2.
  assert (Sw : settled_question (c_snap c) w) by (rewrite Forall_forall in S1; exact (S1 _ (nth_error_In _ _ W1))).
  destruct Sw as (v & Rw).
  destruct (answers_at _ w v Rw _ _ S1 W1) as (names1 & Q1 & V1). destruct (answers_at _ w v Rw _ _ S2 W2) as (names2 & Q2 & V2).
  destruct (C58_chains_are_followed_beside_implications b cfg1 fuel1 c _ _ _ _ F1 D1 R K ON Q1 E1) as [-> _].
  destruct (C58_chains_are_followed_beside_implications b cfg2 fuel2 c _ _ _ _ F2 D2 R K ON Q2 E2) as [-> _]. congruence.
Qed.
Print Assumptions C81_order_of_questions_does_not_matter.

(** Two such sessions also answer alike if the reductions declared about what one of them asks for lead to what the other one
    asks for.  Unlike in the other theorems about C75 there may be implications, other expressions, any history in which no
    composition is replaced or removed, and release builds. *)
Theorem C75_other_words_beside_implications b cfg1 cfg2 fuel1 fuel2 c symbols1 symbols2 answers1 answers2 c1 c2 i j w1 w2 k1 k2 a1 a2 :
  fair cfg1 -> fair cfg2 -> dbg cfg1 = b -> dbg cfg2 = b -> reachable_with b (links_safe b) c -> c_cache c = empty_cache ->
  operators_named (c_snap c) ->
  Forall (settled_question (c_snap c)) symbols1 -> Forall (settled_question (c_snap c)) symbols2 ->
  means (c_snap c) w1 k1 -> means (c_snap c) w2 k2 -> clos_refl_trans_1n nat (reduces (c_snap c)) k1 k2 ->
  run_session cfg1 fuel1 symbols1 c = Ok (answers1, c1) -> run_session cfg2 fuel2 symbols2 c = Ok (answers2, c2) ->
  nth_error symbols1 i = Some w1 -> nth_error answers1 i = Some a1 ->
  nth_error symbols2 j = Some w2 -> nth_error answers2 j = Some a2 -> a1 = a2.
Proof.
  intros F1 F2 D1 D2 R K ON S1 S2 M1 M2 Ch E1 E2 W1 A1 W2 A2.
  assert (Sw : settled_question (c_snap c) w1) by (rewrite Forall_forall in S1; exact (S1 _ (nth_error_In _ _ W1))).
  destruct Sw as (v & k & z & M & Se).
  assert (k = k1) as -> by (destruct M1 as (_ & _ & _ & U); apply U; apply M).
  assert (Se2 : settles (c_snap c) k2 z v).
  { clear - Ch Se. induction Ch as [k|k q k2 Re _ IH]; [exact Se|]. apply IH. exact (settles_next _ _ _ _ _ Se Re). }
  set (Rel := fun w v => exists k z, means (c_snap c) w k /\ settles (c_snap c) k z v).
  assert (R1 : Rel w1 v) by (exists k1, z; auto). assert (R2 : Rel w2 v) by (exists k2, z; auto).
  destruct (answers_at Rel w1 v R1 _ _ S1 W1) as (names1 & Q1 & V1). destruct (answers_at Rel w2 v R2 _ _ S2 W2) as (names2 & Q2 & V2).
  destruct (C58_chains_are_followed_beside_implications b cfg1 fuel1 c _ _ _ _ F1 D1 R K ON Q1 E1) as [-> _].
  destruct (C58_chains_are_followed_beside_implications b cfg2 fuel2 c _ _ _ _ F2 D2 R K ON Q2 E2) as [-> _]. congruence.
Qed.
Print Assumptions C75_other_words_beside_implications.

(** A word is asked for, and later its answer, provided that this leads back to what it is the name of.  It is answered with itself.  Unlike
    in [C76_answers_are_answered_with_themselves] there may be implications, other expressions, any history in which no composition is
    replaced or removed, and release builds. *)
Theorem C76_answers_are_answered_with_themselves_beside_implications b cfg fuel c before w after answers a others c1 c2 c3 c4 k z v a' :
  fair cfg -> dbg cfg = b -> reachable_with b (links_safe b) c -> c_cache c = empty_cache -> operators_named (c_snap c) ->
  Forall (settled_question (c_snap c)) before -> Forall (settled_question (c_snap c)) after ->
  means (c_snap c) w k -> settles (c_snap c) k z v -> means (c_snap c) v z ->
  run_session cfg fuel before c = Ok (answers, c1) -> run_session cfg fuel [w] c1 = Ok ([a], c2) ->
  run_session cfg fuel after c2 = Ok (others, c3) -> run_session cfg fuel [a] c3 = Ok ([a'], c4) -> a' = a.
Proof.
  intros F D R K ON Qb Qa Mw Se Mv E1 E2 E3 E4.
  assert (Any : forall l, Forall (settled_question (c_snap c)) l ->
    exists names, Forall2 (fun w v => exists k z, means (c_snap c) w k /\ settles (c_snap c) k z v) l names).
  { induction 1 as [|x l (y & Xy) _ (names & IH)]; [exists []; constructor|exists (y :: names); now constructor]. }
  assert (Sz : settles (c_snap c) z z v).
  { clear - Se. induction Se as [z w P St Nr|k q z v P Re Se IH]; [now apply SettlesHere|exact IH]. }
  pose proof (calm_session b cfg fuel c F D R ON (fun _ => False) (fun _ X _ => X)) as Ses.
  destruct (Any _ Qb) as (nb & Rb). destruct (Any _ Qa) as (na & Ra).
  destruct (Ses _ _ Rb _ _ _ (calm_start b cfg fuel c R _ K) (reachable_without _ _ _ R) E1) as (_ & H1 & R1).
  assert (Qw : Forall2 (fun w v => exists k z, means (c_snap c) w k /\ settles (c_snap c) k z v) [w] [v]) by (constructor; [eauto|constructor]).
  destruct (Ses _ _ Qw _ _ _ H1 R1 E2) as ([= ->] & H2 & R2). destruct (Ses _ _ Ra _ _ _ H2 R2 E3) as (_ & H3 & R3).
  assert (Qv : Forall2 (fun w v => exists k z, means (c_snap c) w k /\ settles (c_snap c) k z v) [v] [v]) by (constructor; [eauto|constructor]).
  destruct (Ses _ _ Qv _ _ _ H3 R3 E4) as ([= ->] & _). reflexivity.
Qed.
Print Assumptions C76_answers_are_answered_with_themselves_beside_implications.

(** ** The hypotheses are met *)
Example C81_order_example : let s := c_snap undecided_context in
  reachable_with true (links_safe true) undecided_context /\ c_cache undecided_context = empty_cache /\ operators_named s /\
  Forall (settled_question s) (map txt ["h"; "f"; "a"; "b"]) /\ Forall (settled_question s) (map txt ["b"; "a"; "f"; "f"; "h"]).
Proof.
  destruct C58_beside_implications_example as (R & K & ON & Q). cbv zeta. split; [exact R|]. split; [exact K|]. split; [exact ON|].
  revert Q. generalize (c_snap undecided_context). intros s Q. cbn [map] in Q.
  inversion Q as [|? ? ? ? Q1 T1]; subst. inversion T1 as [|? ? ? ? Q2 T2]; subst.
  inversion T2 as [|? ? ? ? Q3 T3]; subst. inversion T3 as [|? ? ? ? Q4 T4]; subst. clear Q T1 T2 T3 T4.
  split; cbn [map]; repeat (constructor; [first [exact (ex_intro _ _ Q1)|exact (ex_intro _ _ Q2)|exact (ex_intro _ _ Q3)|exact (ex_intro _ _ Q4)]|]); constructor.
Qed.
(** In that context `h` leads to `b`. *)
Example C75_other_words_example : let s := c_snap undecided_context in
  means s (txt "h") 77 /\ means s (txt "b") 60 /\ clos_refl_trans_1n nat (reduces s) 77 60.
Proof.
  split; [apply (means_ok _ _ _ [76]); vm_compute; reflexivity|]. split; [apply (means_ok _ _ _ [59]); vm_compute; reflexivity|].
  apply (Relation_Operators.rt1n_trans _ _ _ 69); [apply reduction_of_reduces; vm_compute; reflexivity|].
  apply (Relation_Operators.rt1n_trans _ _ _ 60); [apply reduction_of_reduces; vm_compute; reflexivity|]. constructor.
Qed.
Example C81_order_answers :
  texts_b (run_session cfg0 fuel0 (map txt ["h"; "f"; "a"; "b"]) undecided_context) (map txt ["b"; "b"; "false"; "b"]) = true /\
  texts_b (run_session cfg0 (2 * fuel0) (map txt ["b"; "a"; "f"; "f"; "h"]) undecided_context) (map txt ["b"; "false"; "b"; "b"; "b"]) = true.
Proof. split; vm_compute; reflexivity. Qed.
(** `h` is answered with `b`, which is implied by `a` and `c`. *)
Example C76_beside_implications_example : let s := c_snap undecided_context in
  reachable_with true (links_safe true) undecided_context /\ c_cache undecided_context = empty_cache /\ operators_named s /\
  Forall (settled_question s) (map txt ["f"; "a"]) /\ Forall (settled_question s) (map txt ["a"; "h"]) /\
  exists k z, means s (txt "h") k /\ settles s k z (txt "b") /\ means s (txt "b") z.
Proof.
  cbv zeta. destruct C81_order_example as (R & K & ON & Q & _). split; [exact R|]. split; [exact K|]. split; [exact ON|].
  assert (T : exists k z, means (c_snap undecided_context) (txt "h") k /\ settles (c_snap undecided_context) k z (txt "b") /\ z = 60).
  { exists 77, 60. destruct C58_beside_implications_example as (_ & _ & _ & F2). cbn [map] in F2.
    inversion F2 as [|? ? ? ? (k & z & M & Se) _ Eq1 Eq2]. clear Eq1 Eq2 F2.
    assert (M' : means (c_snap undecided_context) (txt "h") 77) by (apply (means_ok _ _ _ [76]); vm_compute; reflexivity).
    assert (k = 77) as -> by (destruct M' as (_ & _ & _ & U); apply U; apply M). split; [exact M'|]. split; [|reflexivity].
    assert (R77 : reduces (c_snap undecided_context) 77 69) by (apply reduction_of_reduces; vm_compute; reflexivity).
    assert (R69 : reduces (c_snap undecided_context) 69 60) by (apply reduction_of_reduces; vm_compute; reflexivity).
    pose proof (settles_next _ _ _ _ _ (settles_next _ _ _ _ _ Se R77) R69) as S60.
    assert (Z : z = 60); [|rewrite <- Z at 2; exact Se]. revert S60. generalize (txt "b"). clear. intros v S60. inversion S60; subst; [reflexivity|].
    exfalso. match goal with X : reduces _ 60 _ |- _ => apply reduction_of_reduces in X; vm_compute in X; discriminate end. }
  destruct T as (k & z & Mh & Se & ->).
  assert (Mb : means (c_snap undecided_context) (txt "b") 60) by (apply (means_ok _ _ _ [59]); vm_compute; reflexivity).
  revert Q Mh Se Mb. generalize (c_snap undecided_context). intros s Q Mh Se Mb. cbn [map] in *.
  inversion Q as [|? ? Q1 T1]; subst. inversion T1 as [|? ? Q2 T2]; subst. inversion T2 as [|? ? Q3 T3]; subst.
  split; [repeat (constructor; [assumption|]); constructor|]. split; [repeat (constructor; [assumption|]); constructor|].
  exists k, 60. auto.
Qed.
Example C76_beside_implications_answers :
  texts_b (run_session cfg0 fuel0 (map txt ["f"; "a"; "h"; "a"; "h"; "b"]) undecided_context) (map txt ["b"; "false"; "b"; "false"; "b"; "b"]) = true.
Proof. vm_compute. reflexivity. Qed.
