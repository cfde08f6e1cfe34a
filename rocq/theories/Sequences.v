(** What a sequence of declarations, removals, definitions and questions amounts to. *)
From Verif Require Import Snapshot Delta Search Context StoreSpec NameSpec FrameSpec MapFacts AstFacts StoreFacts StoreInv
  RangeFacts History Sim SimRead Steps Keep Quiet SearchPlain Frames Reductions Declare Define Links Meaning OneName Expressions.
From Coq Require Import String List Relations PeanoNat Lia Bool.
Import ListNotations.
Local Open Scope zia_scope.

(** What an answered command says: that [x] now reduces to [y]; that [x] does not reduce any
    more; that [x] is composed of [l] and [r]; or nothing about existing concepts. *)
Inductive saying := Reduces (x y : nat) | Irreducible (x : nat) | Composed (x l r : nat) | Nothing.

(** The command, read and answered like this, says that. *)
Inductive says (cfg : config) (fuel : nat) (c : ctx) (command answer : text) (c' : ctx) : saying -> Prop :=
| says_question : answer <> [] -> (forall e, answer <> error_text e) -> says cfg fuel c command answer c' Nothing
| says_reduction a b x y :
    reads_as_reduction cfg fuel c command a b -> t_key a <> t_key b -> grounded a -> grounded b ->
    answer = [] -> stands_for (c_snap c) (c_snap c') a x -> stands_for (c_snap c) (c_snap c') b y ->
    says cfg fuel c command answer c' (Reduces x y)
| says_removal a b x :
    reads_as_forget cfg fuel c command a \/ reads_as_reduction cfg fuel c command a b /\ t_key a = t_key b ->
    t_concept a = Some (Committed x) -> answer = [] -> says cfg fuel c command answer c' (Irreducible x)
| says_definition n old i l r il ir :
    reads_as_definition cfg fuel c command n old -> t_exp n = None -> t_concept n = Some i ->
    t_exp old = Some (l, r) -> t_concept l = Some il -> t_concept r = Some ir -> answer = [] ->
    says cfg fuel c command answer c' (Composed (place (c_snap c) i) (place (c_snap c) il) (place (c_snap c) ir))
| says_refused_reduction a b e :
    reads_as_reduction cfg fuel c command a b -> t_key a <> t_key b -> answer = error_text e ->
    says cfg fuel c command answer c' Nothing
| says_refused_removal a b x e :
    reads_as_forget cfg fuel c command a \/ reads_as_reduction cfg fuel c command a b /\ t_key a = t_key b ->
    t_concept a = Some (Committed x) -> answer = error_text e -> says cfg fuel c command answer c' Nothing
| says_refused_definition n old i l r e :
    reads_as_definition cfg fuel c command n old -> t_exp n = None -> t_concept n = Some i ->
    t_exp old = Some (l, r) -> answer = error_text e -> says cfg fuel c command answer c' Nothing.

(** Commands that say [ws] lead from [c] to [c'].  None of their changes replaces or removes
    a composition or (release builds only) composes an existing concept ([links_safe]). *)
Inductive history (b : bool) (c : ctx) : list saying -> ctx -> Prop :=
| history_start : history b c [] c
| history_command cfg fuel command ws c1 z d answer c2 w :
    fair cfg -> dbg cfg = b -> history b c ws c1 ->
    run_command cfg fuel command c1 = Ok (z, d) ->
    (forall id x, In (id, x) (d_order (overlay (c_delta d))) -> links_safe b x) ->
    execute cfg fuel command c1 = Ok (answer, c2) -> says cfg fuel c1 command answer c2 w ->
    history b c (ws ++ [w]) c2.

(** The last word about the reduction of [x], and about its composition. *)
Definition reduction_word (x : nat) (w : saying) : option (option nat) :=
  match w with
  | Reduces x' y => if Nat.eqb x x' then Some (Some y) else None
  | Irreducible x' => if Nat.eqb x x' then Some None else None
  | _ => None
  end.
Definition composition_word (x : nat) (w : saying) : option (nat * nat) :=
  match w with Composed x' l r => if Nat.eqb x x' then Some (l, r) else None | _ => None end.
Fixpoint last_word {A} (word : saying -> option A) (ws : list saying) : option A :=
  match ws with
  | [] => None
  | w :: ws => match last_word word ws with Some a => Some a | None => word w end
  end.

Lemma last_word_snoc {A} (word : saying -> option A) ws w :
  last_word word (ws ++ [w]) = match word w with Some a => Some a | None => last_word word ws end.
Proof.
  induction ws as [|v ws IH]; cbn; [destruct (word w); reflexivity|]. rewrite IH. destruct (word w); reflexivity.
Qed.

(** One command. *)
Lemma one_saying cfg fuel c command answer c' w :
  fair cfg -> ready c -> links_agree (c_snap c) -> strings_true (c_snap c) ->
  execute cfg fuel command c = Ok (answer, c') -> says cfg fuel c command answer c' w ->
  no_spaced_text (c_snap c') -> compositions_are_unique (c_snap c') ->
  (forall x, match reduction_word x w with
             | Some (Some y) => reduces (c_snap c') x y
             | Some None => lookup (c_snap c') x <> None /\ forall y, ~ reduces (c_snap c') x y
             | None => lookup (c_snap c) x <> None -> same_reduction (c_snap c) (c_snap c') x
             end) /\
  (forall x, match composition_word x w with
             | Some (l, r) => composed (c_snap c') x l r
             | None => lookup (c_snap c) x <> None -> same_composition (c_snap c) (c_snap c') x
             end) /\
  (forall x, lookup (c_snap c) x <> None -> same_text (c_snap c) (c_snap c') x).
Proof.
  intros F RD LA TR E H NS UC.
  assert (SM : same_meaning (c_snap c) (c_snap c') ->
    (forall x, match reduction_word x Nothing with
             | Some (Some y) => reduces (c_snap c') x y
             | Some None => lookup (c_snap c') x <> None /\ forall y, ~ reduces (c_snap c') x y
             | None => lookup (c_snap c) x <> None -> same_reduction (c_snap c) (c_snap c') x
             end) /\
    (forall x, match composition_word x Nothing with
             | Some (l, r) => composed (c_snap c') x l r
             | None => lookup (c_snap c) x <> None -> same_composition (c_snap c) (c_snap c') x
             end) /\
    (forall x, lookup (c_snap c) x <> None -> same_text (c_snap c) (c_snap c') x)).
  { intros M. cbn. split; [|split]; intros x L; apply (M x L). }
  assert (OR : forall x0 (Q : Prop), only_reduction_of x0 (c_snap c) (c_snap c') ->
    (forall x, x <> x0 -> lookup (c_snap c) x <> None -> same_reduction (c_snap c) (c_snap c') x) /\
    (forall x, lookup (c_snap c) x <> None -> same_composition (c_snap c) (c_snap c') x) /\
    (forall x, lookup (c_snap c) x <> None -> same_text (c_snap c) (c_snap c') x)).
  { intros x0 _ M. split; [intros x N L; apply (M x L), N|]. split; intros x L; apply (M x L). }
  destruct H as [N1 N2|a b x y A K Ga Gb -> Sa Sb|a b x A T ->|n old i l r il ir A N1 N2 O L R ->|a b e A K ->
                |a b x e A T ->|n old i l r e A N1 N2 O ->].
  - apply SM. exact (quiet_same_meaning cfg fuel command c answer c' F RD E N1 N2).
  - destruct (expression_declared cfg fuel command c c' a b F RD LA TR A K Ga Gb E NS) as (x1 & y1 & S1 & S2 & R & M & _).
    rewrite (stands_unique _ _ _ UC _ _ Sa S1), (stands_unique _ _ _ UC _ _ Sb S2).
    destruct (OR x1 True M) as (M1 & M2 & M3). cbn. split; [|split; assumption].
    intros x2. destruct (Nat.eqb_spec x2 x1) as [->|N]; [exact R|exact (M1 x2 N)].
  - assert (RM : removal x [] (c_snap c) (c_snap c')).
    { destruct A as [A|[A K]];
        [exact (forgotten cfg fuel command c [] c' a x F RD A T E)|exact (undeclared cfg fuel command c [] c' a b x F RD A K T E)]. }
    destruct RM as [(e & H & _)|(_ & [y0 RY] & NR & M)]; [destruct (error_not_empty e); auto|].
    assert (LX : lookup (c_snap c') x <> None).
    { destruct (execute_frame cfg fuel command c [] c' F RD E) as (z' & c2' & _ & _ & EX & _). apply EX.
      destruct RY as (k & q & L & _). congruence. }
    destruct (OR x True M) as (M1 & M2 & M3). cbn. split; [|split; assumption].
    intros x2. destruct (Nat.eqb_spec x2 x) as [->|N]; [exact (conj LX NR)|exact (M1 x2 N)].
  - destruct (defined cfg fuel command c [] c' n old i l r F RD A N1 N2 O E) as [(e & H & _)|(_ & xl & xr & C & XL & XR & M)];
      [destruct (error_not_empty e); auto|].
    rewrite (XL _ L), (XR _ R) in C. cbn. split; [intros x Lx; apply (M x Lx)|]. split; [|intros x Lx; apply (M x Lx)].
    intros x. destruct (Nat.eqb_spec x (place (c_snap c) i)) as [->|N]; [exact C|]. intros Lx. apply (M x Lx), N.
  - apply SM. destruct (declared cfg fuel command c _ c' a b F RD A K E) as [(e' & _ & M)|(H & _)]; [exact M|].
    destruct (error_not_empty e H).
  - apply SM. assert (RM : removal x (error_text e) (c_snap c) (c_snap c')).
    { destruct A as [A|[A K]];
        [exact (forgotten cfg fuel command c _ c' a x F RD A T E)|exact (undeclared cfg fuel command c _ c' a b x F RD A K T E)]. }
    destruct RM as [(e' & _ & M)|(H & _)]; [exact M|]. destruct (error_not_empty e H).
  - apply SM. destruct (defined cfg fuel command c _ c' n old i l r F RD A N1 N2 O E) as [(e' & _ & M)|(H & _)]; [exact M|].
    destruct (error_not_empty e H).
Qed.

Lemma history_reachable b c ws c' :
  reachable_with b (links_safe b) c -> history b c ws c' -> reachable_with b (links_safe b) c'.
Proof. intros R H. induction H as [|cfg fuel command ws c1 z d answer c2 w F D H IH E1 OK E W]; [exact R|]. eapply reach_with_execute; eassumption. Qed.
Lemma history_extends b c ws c' :
  reachable_with b (links_safe b) c -> history b c ws c' -> extends (c_snap c) (c_snap c').
Proof.
  intros R H. induction H as [|cfg fuel command ws c1 z d answer c2 w F D H IH E1 OK E W]; [apply extends_refl|].
  eapply extends_trans; [exact IH|].
  pose proof (reachable_ready _ _ (reachable_without _ _ _ (history_reachable b c ws c1 R H))) as RD.
  destruct (execute_frame cfg fuel command c1 answer c2 F RD E) as (z' & c2' & _ & _ & EX & _). exact EX.
Qed.

(** After the whole sequence, the last word counts; what no word is about is as it was. *)
Theorem sequence b c ws c' :
  reachable_with b (links_safe b) c -> history b c ws c' -> no_spaced_text (c_snap c') ->
  (forall x, match last_word (reduction_word x) ws with
             | Some (Some y) => reduces (c_snap c') x y
             | Some None => lookup (c_snap c') x <> None /\ forall y, ~ reduces (c_snap c') x y
             | None => lookup (c_snap c) x <> None -> same_reduction (c_snap c) (c_snap c') x
             end) /\
  (forall x, match last_word (composition_word x) ws with
             | Some (l, r) => composed (c_snap c') x l r
             | None => lookup (c_snap c) x <> None -> same_composition (c_snap c) (c_snap c') x
             end) /\
  (forall x, lookup (c_snap c) x <> None -> same_text (c_snap c) (c_snap c') x).
Proof.
  intros R H. induction H as [|cfg fuel command ws c1 z d answer c2 w F D H IH E1 OK E W]; intros NS.
  - cbn. split; [|split]; intros x _; [split; auto|split; auto|split; split; auto].
  - pose proof (history_reachable b c ws c1 R H) as R1.
    assert (R2 : reachable_with b (links_safe b) c2) by (eapply reach_with_execute; eassumption).
    pose proof (reachable_without _ _ _ R1) as R1'. pose proof (reachable_ready _ _ R1') as RD.
    destruct (execute_frame cfg fuel command c1 answer c2 F RD E) as (z' & c2' & _ & _ & EX & _).
    assert (NS1 : no_spaced_text (c_snap c1)) by (intros n t T; apply (NS n), EX, T).
    destruct (IH NS1) as (I1 & I2 & I3).
    destruct (one_saying cfg fuel c1 command answer c2 w F RD (reachable_links b c1 R1) (reachable_strings b c1 R1') E W NS) as (O1 & O2 & O3).
    { apply (links_agree_spec _ (reachable_links b c2 R2)). }
    pose proof (history_extends b c ws c1 R H) as X1.
    assert (KN : forall x, lookup (c_snap c) x <> None -> lookup (c_snap c1) x <> None) by (apply X1).
    split; [|split].
    + intros x. rewrite last_word_snoc. specialize (O1 x). specialize (I1 x).
      destruct (reduction_word x w) as [[y|]|]; [exact O1|exact O1|].
      destruct (last_word (reduction_word x) ws) as [[y|]|].
      * apply O1; [|exact I1]. destruct I1 as (k & q & L & _). congruence.
      * destruct I1 as [L I1]. split; [apply EX, L|]. intros y Ry. apply (I1 y). apply O1; assumption.
      * intros L r. rewrite (I1 L r). apply O1, KN, L.
    + intros x. rewrite last_word_snoc. specialize (O2 x). specialize (I2 x).
      destruct (composition_word x w) as [[l r]|]; [exact O2|].
      destruct (last_word (composition_word x) ws) as [[l r]|].
      * apply O2; [|exact I2]. destruct I2 as (k & f1 & f2 & q & L & _). congruence.
      * intros L l r. rewrite (I2 L l r). apply O2, KN, L.
    + intros x L. destruct (I3 x L) as [A B]. destruct (O3 x (KN x L)) as [A' B'].
      split; intros y; [rewrite (A y); apply A'|rewrite (B y); apply B'].
Qed.
