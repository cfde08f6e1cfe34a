(** Sequences of commands: C52 and C53. *)
From Verif Require Import Start Snapshot Context StoreSpec NameSpec FrameSpec MapFacts AstFacts RangeFacts History
  Steps Sample Witness NameWitness Quiet Frames Reductions Declare Define Links OneName Expressions Sequences
  PropertiesFrames PropertiesReductions PropertiesDefine.
From Coq Require Import String List Bool Relations PeanoNat Lia.
Import ListNotations.
Local Open Scope string_scope.

(** ** Computing what commands say *)
(** What [t] stands for in [s'], looked up in the lists of compositions and checked. *)
Fixpoint standing (s s' : snapshot) (t : tree) : option nat :=
  match t_concept t with
  | Some i => Some (place s i)
  | None =>
    match t with
    | TLeaf _ _ _ => None
    | TBranch _ _ l r _ _ =>
      match standing s s' l, standing s s' r with
      | Some xl, Some xr =>
        find (fun x => pair_is (composition_of s' x) xl xr) (seq 0 (List.length (concepts s')))
      | _, _ => None
      end
    end
  end.
Lemma standing_ok s s' t x : standing s s' t = Some x -> stands_for s s' t x.
Proof.
  revert x. induction t as [w c k|w c l IHl r IHr fv bv]; intros x; cbn [standing t_concept];
    (destruct c as [i|]; [intros [= <-]; apply stands_known; reflexivity|]); [discriminate|].
  destruct (standing s s' l) as [xl|]; [|discriminate]. destruct (standing s s' r) as [xr|]; [|discriminate].
  intros H. apply find_some in H. destruct H as [_ H]. apply pair_is_eq in H.
  apply (stands_pair _ _ _ l r xl xr); auto. apply composition_of_composed. exact H.
Qed.
Fixpoint grounded_b (t : tree) : bool :=
  match t with
  | TLeaf _ c _ => match c with Some _ => true | None => false end
  | TBranch _ c l r _ _ => match c with Some _ => true | None => grounded_b l && grounded_b r end
  end.
Lemma grounded_ok t : grounded_b t = true -> grounded t.
Proof.
  induction t as [w c k|w c l IHl r IHr fv bv]; cbn; (destruct c; [intros _|]); try discriminate.
  - left. discriminate.
  - intros H. apply andb_prop in H. destruct H. right. auto.
Qed.
Definition unspaced (s : snapshot) : bool :=
  forallb (fun k => match c_spec k with StringPart t => negb (smem N.eqb c_space t) | _ => true end) (concepts s).
Lemma unspaced_ok s : unspaced s = true -> no_spaced_text s.
Proof.
  intros H n t (k & L & E). unfold unspaced in H. rewrite forallb_forall in H.
  specialize (H k (nth_error_In _ _ L)). rewrite E in H. destruct (smem N.eqb c_space t); [discriminate|reflexivity].
Qed.
(** Error messages are longer than this. *)
Definition short (t : text) : bool := Nat.ltb (List.length t) 8.
Lemma short_ok t : short t = true -> forall e, t <> error_text e.
Proof.
  intros H e ->. unfold short in H. apply Nat.ltb_lt in H. revert H. apply Nat.le_ngt.
  destruct e; unfold error_text; try (rewrite app_length); try (cbn; lia).
Qed.
Definition saying_of (c : ctx) (command : string) (answer : text) (c' : ctx) : option saying :=
  match answer with
  | [] =>
    match as_forget c command with
    | Some a => match t_concept a with Some (Committed x) => Some (Irreducible x) | _ => None end
    | None =>
      match as_reduction c command with
      | Some (a, b) =>
        if key_eqb (t_key a) (t_key b) then
          match t_concept a with Some (Committed x) => Some (Irreducible x) | _ => None end
        else if grounded_b a && grounded_b b then
          match standing (c_snap c) (c_snap c') a, standing (c_snap c) (c_snap c') b with
          | Some x, Some y => Some (Reduces x y)
          | _, _ => None
          end
        else None
      | None =>
        match as_definition c command with
        | Some (n, old) =>
          match t_exp n, t_concept n, t_exp old with
          | None, Some i, Some (l, r) =>
            match t_concept l, t_concept r with
            | Some il, Some ir => Some (Composed (place (c_snap c) i) (place (c_snap c) il) (place (c_snap c) ir))
            | _, _ => None
            end
          | _, _, _ => None
          end
        | None => None
        end
      end
    end
  | _ => if short answer then Some Nothing else None
  end.
Lemma saying_of_ok c command answer c' w :
  saying_of c command answer c' = Some w -> says cfg0 fuel0 c (txt command) answer c' w.
Proof.
  unfold saying_of. destruct answer as [|ch answer].
  2:{ destruct (short _) eqn:H; [|discriminate]. intros [= <-]. apply says_question; [discriminate|apply short_ok, H]. }
  destruct (as_forget c command) as [a|] eqn:AF.
  { destruct (t_concept a) as [[x|]|] eqn:T; try discriminate. intros [= <-].
    eapply (says_removal _ _ _ _ _ _ a a x); auto. left. apply as_forget_ok, AF. }
  destruct (as_reduction c command) as [[a b]|] eqn:AR.
  { apply as_reduction_ok in AR. destruct (key_eqb_spec (t_key a) (t_key b)) as [K|K].
    - destruct (t_concept a) as [[x|]|] eqn:T; try discriminate. intros [= <-]. eapply (says_removal _ _ _ _ _ _ a b x); auto.
    - destruct (grounded_b a && grounded_b b)%bool eqn:G; [|discriminate]. apply andb_prop in G. destruct G as [Ga Gb].
      destruct (standing _ _ a) as [x|] eqn:Sa; [|discriminate]. destruct (standing _ _ b) as [y|] eqn:Sb; [|discriminate].
      intros [= <-]. apply (says_reduction _ _ _ _ _ _ a b x y); auto using grounded_ok, standing_ok. }
  destruct (as_definition c command) as [[n old]|] eqn:AD; [|discriminate]. apply as_definition_ok in AD.
  destruct (t_exp n) as [|] eqn:N1; [discriminate|]. destruct (t_concept n) as [i|] eqn:N2; [|discriminate].
  destruct (t_exp old) as [[l r]|] eqn:O; [|discriminate]. destruct (t_concept l) as [il|] eqn:L; [|discriminate].
  destruct (t_concept r) as [ir|] eqn:R; [|discriminate]. intros [= <-]. eapply says_definition; eauto.
Qed.
Fixpoint sayings (commands : list string) (c : ctx) : option (list saying * ctx) :=
  match commands with
  | [] => Some ([], c)
  | command :: commands =>
    match run_command cfg0 fuel0 (txt command) c, execute cfg0 fuel0 (txt command) c with
    | Ok (_, d), Ok (answer, c') =>
      if forallb (fun p => links_safe_b (dbg cfg0) (snd p)) (d_order (overlay (c_delta d))) then
        match saying_of c command answer c', sayings commands c' with
        | Some w, Some (ws, c2) => Some (w :: ws, c2)
        | _, _ => None
        end
      else None
    | _, _ => None
    end
  end.
Lemma history_before b c ws c' w c0 :
  (forall ws1 c1, history b c0 ws1 c1 -> ws1 = [w] -> c1 = c -> history b c ws c' -> history b c0 (w :: ws) c').
Proof.
  intros ws1 c1 H1 -> -> H. induction H as [|cfg fuel command ws c1 z d answer c2 w2 F D H IH E1 OK E W]; [exact H1|].
  change (w :: ws ++ [w2]) with ((w :: ws) ++ [w2])%list. eapply history_command; eassumption.
Qed.
Lemma sayings_ok commands c ws c' : sayings commands c = Some (ws, c') -> history true c ws c'.
Proof.
  revert c ws c'. induction commands as [|command commands IH]; intros c ws c'; cbn [sayings].
  - intros [= <- <-]. apply history_start.
  - destruct (run_command cfg0 fuel0 (txt command) c) as [[z d]| | |] eqn:E1; try discriminate.
    destruct (execute cfg0 fuel0 (txt command) c) as [[answer c1]| | |] eqn:E; try discriminate.
    destruct (forallb _ _) eqn:E3; [|discriminate].
    destruct (saying_of c command answer c1) as [w|] eqn:W; [|discriminate].
    destruct (sayings commands c1) as [[ws2 c2]|] eqn:S; [|discriminate]. intros [= <- <-].
    apply (history_before true c1 ws2 c2 w c [w] c1); auto.
    eapply (history_command true c cfg0 fuel0 (txt command) [] c z d answer c1 w);
      [exact fair0|reflexivity|apply history_start|exact E1| |exact E|apply saying_of_ok, W].
    intros id x I. rewrite forallb_forall in E3. specialize (E3 _ I). cbn in E3.
    destruct x as [|? []| |]; cbn in *; congruence || auto; discriminate.
Qed.

(** ** C52: the last word about a concept counts *)
(** However many commands are given that ask, declare, forget or define: afterwards a concept
    reduces to what the last command about it said, and is composed of what the last
    definition of it said; whatever no command was about is as it was.  [says] and [history]
    are in Sequences.v. *)
Theorem C52_last_word_counts b c ws c' :
  reachable_with b (links_safe b) c -> history b c ws c' -> no_spaced_text (c_snap c') ->
  (forall x, match last_word (reduction_word x) ws with
             | Some (Some y) => reduces (c_snap c') x y
             | Some None => lookup (c_snap c') x <> None /\ forall y, ~ reduces (c_snap c') x y
             | None => lookup (c_snap c) x <> None -> same_reduction (c_snap c) (c_snap c') x
             end) /\
  (forall x, match last_word (composition_word x) ws with
             | Some (l, r) => composed (c_snap c') x l r
             | None => lookup (c_snap c) x <> None -> same_composition (c_snap c) (c_snap c') x
             end) /\
  (forall x, lookup (c_snap c) x <> None -> same_text (c_snap c) (c_snap c') x).
Proof. exact (sequence b c ws c'). Qed.
Print Assumptions C52_last_word_counts.

(** A declaration lasts until a command is about its concept. *)
Theorem C52_declarations_last b c ws c' x y :
  reachable_with b (links_safe b) c -> history b c ws c' -> no_spaced_text (c_snap c') ->
  reduces (c_snap c) x y -> (forall w, In w ws -> reduction_word x w = None) -> reduces (c_snap c') x y.
Proof.
  intros R H N Y A. destruct (sequence b c ws c' R H N) as (S & _). specialize (S x).
  destruct (last_word (reduction_word x) ws) as [a|] eqn:L.
  - exfalso. clear - A L. revert A. induction ws as [|w ws IH]; intros A; [discriminate|]. cbn in L.
    destruct (last_word (reduction_word x) ws) as [a'|]; [apply IH; auto; intros w' I; apply A; right; exact I|].
    rewrite (A w (or_introl eq_refl)) in L. discriminate.
  - apply S; [|exact Y]. destruct Y as (k & q & L' & _). congruence.
Qed.
Print Assumptions C52_declarations_last.

(** Forgetting undoes: when the last word about everything that was declared is that it does
    not reduce, as it did not at the start, then all is as at the start. *)
Theorem C52_forgetting_undoes b c ws c' :
  reachable_with b (links_safe b) c -> history b c ws c' -> no_spaced_text (c_snap c') ->
  (forall x, last_word (composition_word x) ws = None) ->
  (forall x a, last_word (reduction_word x) ws = Some a -> a = None /\ forall y, ~ reduces (c_snap c) x y) ->
  forall x, lookup (c_snap c) x <> None ->
    same_reduction (c_snap c) (c_snap c') x /\ same_composition (c_snap c) (c_snap c') x /\
    same_text (c_snap c) (c_snap c') x.
Proof.
  intros R H N C A x L. destruct (sequence b c ws c' R H N) as (S1 & S2 & S3).
  specialize (S1 x). specialize (S2 x). rewrite C in S2. split; [|split; [exact (S2 L)|exact (S3 x L)]].
  specialize (A x). destruct (last_word (reduction_word x) ws) as [a|]; [|exact (S1 L)].
  destruct (A a eq_refl) as [-> Z]. destruct S1 as [_ S1]. intros r. split; intros Y; [destruct (Z r Y)|destruct (S1 r Y)].
Qed.
Print Assumptions C52_forgetting_undoes.

(** Neither the order nor the number of times matters, as long as no two of the sayings are
    about the same concept. *)
Lemma last_word_in {A} (word : saying -> option A) ws a :
  last_word word ws = Some a -> exists w, In w ws /\ word w = Some a.
Proof.
  induction ws as [|w ws IH]; [discriminate|]. cbn. destruct (last_word word ws) as [a'|].
  - intros [= ->]. destruct (IH eq_refl) as (w' & I & E). exists w'. auto.
  - intros E. exists w. auto.
Qed.
Lemma last_word_some {A} (word : saying -> option A) ws w a :
  In w ws -> word w = Some a -> exists a', last_word word ws = Some a'.
Proof.
  induction ws as [|w' ws IH]; [intros []|]. intros I E. cbn. destruct (last_word word ws) as [a'|]; [eauto|].
  destruct I as [->|I]; [eauto|]. destruct (IH I E) as (? & ?). discriminate.
Qed.
Lemma last_word_set {A} (word : saying -> option A) ws1 ws2 :
  (forall w, In w ws1 <-> In w ws2) ->
  (forall w w' a a', In w ws1 -> In w' ws1 -> word w = Some a -> word w' = Some a' -> a = a') ->
  last_word word ws1 = last_word word ws2.
Proof.
  intros S U. destruct (last_word word ws1) as [a|] eqn:L1.
  - destruct (last_word_in _ _ _ L1) as (w & I & E). destruct (last_word_some word ws2 w a) as (a' & L2); [apply S, I|exact E|].
    destruct (last_word_in _ _ _ L2) as (w' & I' & E'). rewrite L2. f_equal. apply (U w w'); auto. apply S, I'.
  - destruct (last_word word ws2) as [a|] eqn:L2; [|reflexivity].
    destruct (last_word_in _ _ _ L2) as (w & I & E). destruct (last_word_some word ws1 w a) as (a' & L); [apply S, I|exact E|].
    congruence.
Qed.
Lemma reduces_once s x y y' : reduces s x y -> reduces s x y' -> y = y'.
Proof. intros A B. apply reduction_of_reduces in A, B. congruence. Qed.
Lemma composed_once s x l r l' r' : composed s x l r -> composed s x l' r' -> l = l' /\ r = r'.
Proof. intros A B. apply composition_of_composed in A, B. rewrite A in B. injection B as <- <-. split; reflexivity. Qed.
Theorem C52_order_does_not_matter b c ws1 c1 ws2 c2 :
  reachable_with b (links_safe b) c -> history b c ws1 c1 -> history b c ws2 c2 ->
  no_spaced_text (c_snap c1) -> no_spaced_text (c_snap c2) ->
  (forall w, In w ws1 <-> In w ws2) ->
  (forall x w w' a a', In w ws1 -> In w' ws1 -> reduction_word x w = Some a -> reduction_word x w' = Some a' -> a = a') ->
  (forall x w w' a a', In w ws1 -> In w' ws1 -> composition_word x w = Some a -> composition_word x w' = Some a' -> a = a') ->
  forall x, lookup (c_snap c) x <> None ->
    same_reduction (c_snap c1) (c_snap c2) x /\ same_composition (c_snap c1) (c_snap c2) x /\
    same_text (c_snap c1) (c_snap c2) x.
Proof.
  intros R H1 H2 N1 N2 S U V x L.
  destruct (sequence b c ws1 c1 R H1 N1) as (A1 & A2 & A3). destruct (sequence b c ws2 c2 R H2 N2) as (B1 & B2 & B3).
  specialize (A1 x). specialize (A2 x). specialize (B1 x). specialize (B2 x).
  rewrite <- (last_word_set (reduction_word x) ws1 ws2 S (U x)) in B1.
  rewrite <- (last_word_set (composition_word x) ws1 ws2 S (V x)) in B2. split; [|split].
  - destruct (last_word (reduction_word x) ws1) as [[y|]|].
    + intros r. split; intros Y; [rewrite <- (reduces_once _ _ _ _ A1 Y)|rewrite <- (reduces_once _ _ _ _ B1 Y)]; assumption.
    + intros r. destruct A1 as [_ A1]. destruct B1 as [_ B1]. split; intros Y; [destruct (A1 r Y)|destruct (B1 r Y)].
    + intros r. rewrite <- (A1 L r). apply (B1 L r).
  - destruct (last_word (composition_word x) ws1) as [[l r]|].
    + intros l' r'. split; intros Y; [destruct (composed_once _ _ _ _ _ _ A2 Y)|destruct (composed_once _ _ _ _ _ _ B2 Y)];
        subst; assumption.
    + intros l r. rewrite <- (A2 L l r). apply (B2 L l r).
  - destruct (A3 x L) as [T1 T2]. destruct (B3 x L) as [T3 T4].
    split; intros t; [rewrite <- (T1 t); apply T3|rewrite <- (T2 t); apply T4].
Qed.
Print Assumptions C52_order_does_not_matter.

(** Nine commands, about declared, forgotten and defined concepts and about pairs. *)
Definition last_word_commands :=
  ["let (a (-> b))"; "let (c (-> b))"; "a"; "forget a"; "c"; "let ((a b) (-> d))"; "forget c"; "let (c (-> (b d)))";
   "let (e (:= (a f)))"].
Definition last_word_check (x : option (list saying * ctx)) : bool :=
  match x with
  | Some (ws, c) =>
    unspaced (c_snap c) && Nat.eqb (List.length ws) 9 &&
    match ws with
    | Reduces a b :: Reduces k b' :: _ =>
      match last_word (reduction_word a) ws, last_word (reduction_word k) ws with
      | Some None, Some (Some y) => Nat.eqb b b' && negb (Nat.eqb b y)
      | _, _ => false
      end
    | _ => false
    end
  | None => false
  end.
Lemma last_word_checked : last_word_check (sayings last_word_commands base_context) = true.
Proof. vm_compute. reflexivity. Qed.
Lemma last_word_meaning x :
  last_word_check x = true ->
  exists ws c', x = Some (ws, c') /\ no_spaced_text (c_snap c') /\ List.length ws = 9 /\
    exists a b k y, In (Reduces a b) ws /\ last_word (reduction_word a) ws = Some None /\
      In (Reduces k b) ws /\ b <> y /\ last_word (reduction_word k) ws = Some (Some y).
Proof.
  unfold last_word_check. destruct x as [[ws c']|]; [|discriminate]. intros H. apply andb_prop in H. destruct H as [H H3].
  apply andb_prop in H. destruct H as [H1 H2]. exists ws, c'. split; [reflexivity|]. split; [apply unspaced_ok, H1|].
  split; [apply Nat.eqb_eq, H2|]. clear H1 H2.
  destruct ws as [|[a b| | |] [|[k b'| | |] ws]]; try discriminate.
  destruct (last_word (reduction_word a) _) as [[|]|] eqn:A; try discriminate.
  destruct (last_word (reduction_word k) _) as [[y|]|] eqn:K; try discriminate.
  apply andb_prop in H3. destruct H3 as [B Y]. apply Nat.eqb_eq in B. subst b'. apply negb_true_iff, Nat.eqb_neq in Y.
  exists a, b, k, y. split; [left; reflexivity|]. split; [exact A|]. split; [right; left; reflexivity|]. split; [exact Y|exact K].
Qed.
Example last_word_applies :
  exists ws c', reachable_with true (links_safe true) base_context /\ history true base_context ws c' /\
    no_spaced_text (c_snap c') /\ List.length ws = 9 /\
    exists a b k y, In (Reduces a b) ws /\ last_word (reduction_word a) ws = Some None /\
      In (Reduces k b) ws /\ b <> y /\ last_word (reduction_word k) ws = Some (Some y).
Proof.
  destruct (last_word_meaning _ last_word_checked) as (ws & c' & S & N & H).
  exists ws, c'. split; [apply reach_with_base|]. split; [exact (sayings_ok _ _ _ _ S)|]. split; [exact N|exact H].
Qed.

(** The same things said in two orders, among other questions, once everything has a name. *)
Definition preparations := ["let (a (-> b))"; "let (c (-> d))"; "let (e (-> f))"; "forget a"; "forget c"; "forget e"].
Definition one_order := ["let (a (-> b))"; "c"; "let (c (-> d))"; "let (e (:= (b d)))"].
Definition other_order := ["let (e (:= (b d)))"; "let (c (-> d))"; "e"; "c"; "let (a (-> b))"; "a"].
Definition saying_eqb (v w : saying) : bool :=
  match v, w with
  | Reduces x y, Reduces x' y' => Nat.eqb x x' && Nat.eqb y y'
  | Irreducible x, Irreducible x' => Nat.eqb x x'
  | Composed x l r, Composed x' l' r' => Nat.eqb x x' && Nat.eqb l l' && Nat.eqb r r'
  | Nothing, Nothing => true
  | _, _ => false
  end.
Lemma saying_eqb_eq v w : saying_eqb v w = true -> v = w.
Proof.
  destruct v, w; cbn; intros H; try discriminate; repeat (apply andb_prop in H; destruct H as [H ?]);
    repeat match goal with E : Nat.eqb _ _ = true |- _ => apply Nat.eqb_eq in E; subst end; reflexivity.
Qed.
Definition among (ws1 ws2 : list saying) : bool := forallb (fun w => existsb (saying_eqb w) ws2) ws1.
Lemma among_in ws1 ws2 : among ws1 ws2 = true -> forall w, In w ws1 -> In w ws2.
Proof.
  unfold among. rewrite forallb_forall. intros H w I. specialize (H w I). apply existsb_exists in H.
  destruct H as (w' & I' & E). rewrite (saying_eqb_eq _ _ E). exact I'.
Qed.
(** No two of the sayings are about the same concept, unless they are the same. *)
Definition about (w : saying) : option (bool * nat) :=
  match w with Reduces x _ | Irreducible x => Some (true, x) | Composed x _ _ => Some (false, x) | Nothing => None end.
Definition separate (ws : list saying) : bool :=
  forallb (fun v => forallb (fun w =>
    match about v, about w with
    | Some (p, x), Some (q, y) => negb (Bool.eqb p q && Nat.eqb x y) || saying_eqb v w
    | _, _ => true
    end) ws) ws.
Lemma separate_ok ws : separate ws = true ->
  (forall x w w' a a', In w ws -> In w' ws -> reduction_word x w = Some a -> reduction_word x w' = Some a' -> a = a') /\
  (forall x w w' a a', In w ws -> In w' ws -> composition_word x w = Some a -> composition_word x w' = Some a' -> a = a').
Proof.
  unfold separate. rewrite forallb_forall. intros H.
  assert (H' : forall w w', In w ws -> In w' ws -> about w = about w' -> about w <> None -> w = w').
  { intros w w' I I' E N. specialize (H w I). rewrite forallb_forall in H. specialize (H w' I').
    rewrite <- E in H. destruct (about w) as [[p x]|]; [|congruence].
    rewrite Bool.eqb_reflx, Nat.eqb_refl in H. exact (saying_eqb_eq _ _ H). }
  split; intros x w w' a a' I I' E E';
    (assert (w = w'); [apply H'; auto; revert E E'; destruct w, w'; cbn; try discriminate;
      try destruct (Nat.eqb_spec x x0); try destruct (Nat.eqb_spec x x1); intros; try discriminate; subst; congruence|congruence]).
Qed.
Definition orders_check (x : option (list saying * ctx)) : bool :=
  match x with
  | Some (_, c) =>
    match sayings one_order c, sayings other_order c with
    | Some (ws1, c1), Some (ws2, c2) =>
      unspaced (c_snap c1) && unspaced (c_snap c2) && among ws1 ws2 && among ws2 ws1 && separate ws1 &&
      match ws1 with [Reduces _ _; Nothing; Reduces _ _; Composed _ _ _] => true | _ => false end &&
      match ws2 with Composed _ _ _ :: _ => true | _ => false end
    | _, _ => false
    end
  | None => false
  end.
Lemma orders_checked : orders_check (sayings preparations base_context) = true.
Proof. vm_compute. reflexivity. Qed.
Lemma orders_meaning x :
  orders_check x = true ->
  exists ws c ws1 c1 ws2 c2, x = Some (ws, c) /\ sayings one_order c = Some (ws1, c1) /\ sayings other_order c = Some (ws2, c2) /\
    no_spaced_text (c_snap c1) /\ no_spaced_text (c_snap c2) /\ (forall w, In w ws1 <-> In w ws2) /\
    (forall x w w' a a', In w ws1 -> In w' ws1 -> reduction_word x w = Some a -> reduction_word x w' = Some a' -> a = a') /\
    (forall x w w' a a', In w ws1 -> In w' ws1 -> composition_word x w = Some a -> composition_word x w' = Some a' -> a = a') /\
    ws1 <> ws2 /\ List.length ws1 = 4.
Proof.
  unfold orders_check. destruct x as [[ws c]|]; [|discriminate].
  destruct (sayings one_order c) as [[ws1 c1]|] eqn:E1; [|discriminate].
  destruct (sayings other_order c) as [[ws2 c2]|] eqn:E2; [|discriminate].
  intros H. apply andb_prop in H. destruct H as [H H7]. apply andb_prop in H. destruct H as [H H6].
  apply andb_prop in H. destruct H as [H H5]. apply andb_prop in H. destruct H as [H H4].
  apply andb_prop in H. destruct H as [H H3]. apply andb_prop in H. destruct H as [H1 H2].
  apply separate_ok in H5. destruct H5 as [U V].
  exists ws, c, ws1, c1, ws2, c2. split; [reflexivity|]. split; [exact E1|]. split; [exact E2|].
  split; [apply unspaced_ok, H1|]. split; [apply unspaced_ok, H2|].
  split; [intros w; split; apply among_in; assumption|]. split; [exact U|]. split; [exact V|].
  destruct ws1 as [|[] [|[] [|[] [|[] [|]]]]]; try discriminate. split; [|reflexivity].
  intros <-. discriminate.
Qed.
Example order_does_not_matter_applies :
  exists c ws1 c1 ws2 c2, reachable_with true (links_safe true) c /\ history true c ws1 c1 /\ history true c ws2 c2 /\
    no_spaced_text (c_snap c1) /\ no_spaced_text (c_snap c2) /\ (forall w, In w ws1 <-> In w ws2) /\
    (forall x w w' a a', In w ws1 -> In w' ws1 -> reduction_word x w = Some a -> reduction_word x w' = Some a' -> a = a') /\
    (forall x w w' a a', In w ws1 -> In w' ws1 -> composition_word x w = Some a -> composition_word x w' = Some a' -> a = a') /\
    ws1 <> ws2 /\ List.length ws1 = 4.
Proof.
  destruct (orders_meaning _ orders_checked) as (ws & c & ws1 & c1 & ws2 & c2 & S & S1 & S2 & H).
  exists c, ws1, c1, ws2, c2. split; [|split; [exact (sayings_ok _ _ _ _ S1)|split; [exact (sayings_ok _ _ _ _ S2)|exact H]]].
  exact (history_reachable true base_context ws c (reach_with_base _ _) (sayings_ok _ _ _ _ S)).
Qed.
(** Forgetting what was declared undoes it; and the declarations last. *)
Definition undone_check (x : option (list saying * ctx)) : bool :=
  match x with
  | Some (_, c) =>
    match sayings ["let (a (-> d))"; "a"; "let (c (-> d))"; "forget a"; "forget c"] c with
    | Some ([Reduces x d; Nothing; Reduces y d'; Irreducible x'; Irreducible y'], c') =>
      unspaced (c_snap c') && Nat.eqb x x' && Nat.eqb y y' &&
      match reduction_of (c_snap c) x, reduction_of (c_snap c) y with None, None => true | _, _ => false end
    | _ => false
    end
  | None => false
  end.
Lemma undone_checked : undone_check (sayings preparations base_context) = true.
Proof. vm_compute. reflexivity. Qed.
Lemma undone_meaning x :
  undone_check x = true ->
  exists ws0 c ws c', x = Some (ws0, c) /\ history true c ws c' /\ no_spaced_text (c_snap c') /\
    (forall x, last_word (composition_word x) ws = None) /\
    (forall x a, last_word (reduction_word x) ws = Some a -> a = None /\ forall y, ~ reduces (c_snap c) x y) /\
    exists x y, In (Reduces x y) ws.
Proof.
  unfold undone_check. destruct x as [[ws0 c]|]; [|discriminate].
  match goal with |- context [sayings ?l c] => destruct (sayings l c) as [[ws c']|] eqn:S end; [|discriminate].
  intros H. exists ws0, c, ws, c'. split; [reflexivity|]. split; [exact (sayings_ok _ _ _ _ S)|]. clear S.
  destruct ws as [|[x d| | |] [|[| | |] [|[y d'| | |] [|[|x'| |] [|[|y'| |] [|]]]]]]; try discriminate.
  apply andb_prop in H. destruct H as [H H4]. apply andb_prop in H. destruct H as [H H3]. apply andb_prop in H. destruct H as [H1 H2].
  apply Nat.eqb_eq in H2, H3. subst x' y'. split; [apply unspaced_ok, H1|]. split; [reflexivity|]. split.
  - intros z a. cbn. destruct (Nat.eqb_spec z y) as [->|N].
    + intros [= <-]. split; [reflexivity|]. intros r Y. apply reduction_of_reduces in Y. rewrite Y in H4.
      destruct (reduction_of _ x); discriminate.
    + destruct (Nat.eqb_spec z x) as [->|N']; [|discriminate].
      intros [= <-]. split; [reflexivity|]. intros r Y. apply reduction_of_reduces in Y. rewrite Y in H4. discriminate.
  - exists x, d. left. reflexivity.
Qed.
Example forgetting_undoes_applies :
  exists c ws c', reachable_with true (links_safe true) c /\ history true c ws c' /\ no_spaced_text (c_snap c') /\
    (forall x, last_word (composition_word x) ws = None) /\
    (forall x a, last_word (reduction_word x) ws = Some a -> a = None /\ forall y, ~ reduces (c_snap c) x y) /\
    exists x y, In (Reduces x y) ws.
Proof.
  destruct (undone_meaning _ undone_checked) as (ws0 & c & ws & c' & S & H). exists c, ws, c'. split; [|exact H].
  exact (history_reachable true base_context ws0 c (reach_with_base _ _) (sayings_ok _ _ _ _ S)).
Qed.
Definition lasting_check (x : option (list saying * ctx)) : bool :=
  match x with
  | Some ([Reduces x y; Reduces x' _], c) =>
    match sayings ["forget c"; "a"; "let ((c e) (-> d))"; "let (c (-> a))"] c with
    | Some (ws, c') =>
      unspaced (c_snap c') && opt_is (reduction_of (c_snap c) x) y &&
      forallb (fun w => match reduction_word x w with None => true | _ => false end) ws &&
      existsb (fun w => match reduction_word x' w with None => false | _ => true end) ws
    | None => false
    end
  | _ => false
  end.
Lemma lasting_checked : lasting_check (sayings ["let (a (-> b))"; "let (c (-> d))"] base_context) = true.
Proof. vm_compute. reflexivity. Qed.
Lemma lasting_meaning x :
  lasting_check x = true ->
  exists ws0 c ws c' x0 y, x = Some (ws0, c) /\ history true c ws c' /\ no_spaced_text (c_snap c') /\
    reduces (c_snap c) x0 y /\ (forall w, In w ws -> reduction_word x0 w = None) /\ ws <> [].
Proof.
  unfold lasting_check. destruct x as [[[|[x y| | |] [|[x' y'| | |] [|]]] c]|]; try discriminate.
  match goal with |- context [sayings ?l c] => destruct (sayings l c) as [[ws c']|] eqn:S end; [|discriminate].
  intros H. apply andb_prop in H. destruct H as [H H4]. apply andb_prop in H. destruct H as [H H3].
  apply andb_prop in H. destruct H as [H1 H2]. do 2 eexists. exists ws, c', x, y. split; [reflexivity|].
  split; [exact (sayings_ok _ _ _ _ S)|]. split; [apply unspaced_ok, H1|].
  split; [apply reduction_of_reduces, opt_is_eq, H2|]. split.
  - intros w I. rewrite forallb_forall in H3. specialize (H3 w I). destruct (reduction_word x w); [discriminate|reflexivity].
  - intros ->. discriminate.
Qed.
Example declarations_last_applies :
  exists c ws c' x y, reachable_with true (links_safe true) c /\ history true c ws c' /\ no_spaced_text (c_snap c') /\
    reduces (c_snap c) x y /\ (forall w, In w ws -> reduction_word x w = None) /\ ws <> [].
Proof.
  destruct (lasting_meaning _ lasting_checked) as (ws0 & c & ws & c' & x & y & S & H). exists c, ws, c', x, y. split; [|exact H].
  exact (history_reachable true base_context ws0 c (reach_with_base _ _) (sayings_ok _ _ _ _ S)).
Qed.

(** ** C53: a declaration about an expression concerns that expression *)
(** An accepted declaration makes the concept that its left hand side stands for reduce to
    the concept that its right hand side stands for: a symbol stands for the concept it
    denotes and a pair stands for the composition of what its halves stand for
    ([stands_for] in Expressions.v).  Nothing else reduces differently, and every
    composition and text stays.  Missing for the full statement: names that contain a
    space, for which it is false (below). *)
Theorem C53_expression_declared_partial cfg fuel command b c c' lft rgt :
  fair cfg -> reachable_with b (links_safe b) c ->
  reads_as_reduction cfg fuel c command lft rgt -> t_key lft <> t_key rgt -> grounded lft -> grounded rgt ->
  execute cfg fuel command c = Ok ([], c') -> no_spaced_text (c_snap c') ->
  exists x y, stands_for (c_snap c) (c_snap c') lft x /\ stands_for (c_snap c) (c_snap c') rgt y /\
    reduces (c_snap c') x y /\ only_reduction_of x (c_snap c) (c_snap c').
Proof.
  intros F R A K Gl Gr E N. pose proof (reachable_without _ _ _ R) as R'.
  destruct (expression_declared cfg fuel command c c' lft rgt F (reachable_ready _ _ R') (reachable_links b c R)
    (reachable_strings b c R') A K Gl Gr E N) as (x & y & S1 & S2 & Y & O & _).
  exists x, y. split; [exact S1|]. split; [exact S2|]. split; [exact Y|exact O].
Qed.
Print Assumptions C53_expression_declared_partial.
(** Both sides are nested pairs whose symbols are partly new. *)
Definition nested_check (x : option (list saying * ctx)) : bool :=
  match x with
  | Some (_, c) =>
    match as_reduction c "let (((a d) b) (-> (c (e a))))", execute cfg0 fuel0 (txt "let (((a d) b) (-> (c (e a))))") c with
    | Some (l, r), Ok ([], c') =>
      negb (key_eqb (t_key l) (t_key r)) && grounded_b l && grounded_b r && unspaced (c_snap c') &&
      match t_concept l, t_concept r with None, None => true | _, _ => false end
    | _, _ => false
    end
  | None => false
  end.
Lemma nested_checked : nested_check (sayings ["let (a (-> b))"; "forget a"; "let (c (-> b))"; "forget c"] base_context) = true.
Proof. vm_compute. reflexivity. Qed.
Lemma nested_meaning x :
  nested_check x = true ->
  exists ws c c' l r, x = Some (ws, c) /\
    reads_as_reduction cfg0 fuel0 c (txt "let (((a d) b) (-> (c (e a))))") l r /\ t_key l <> t_key r /\ grounded l /\ grounded r /\
    execute cfg0 fuel0 (txt "let (((a d) b) (-> (c (e a))))") c = Ok ([], c') /\ no_spaced_text (c_snap c') /\
    t_concept l = None /\ t_concept r = None.
Proof.
  unfold nested_check. destruct x as [[ws c]|]; [|discriminate].
  destruct (as_reduction c _) as [[l r]|] eqn:A; [|discriminate]. apply as_reduction_ok in A.
  destruct (execute _ _ _ c) as [[[|] c']| | |] eqn:EX; try discriminate.
  intros H. apply andb_prop in H. destruct H as [H H5]. apply andb_prop in H. destruct H as [H H4].
  apply andb_prop in H. destruct H as [H H3]. apply andb_prop in H. destruct H as [H1 H2].
  destruct (t_concept l) eqn:L; [discriminate|]. destruct (t_concept r) eqn:R; [discriminate|].
  exists ws, c, c', l, r. split; [reflexivity|]. split; [exact A|].
  split; [destruct (key_eqb_spec (t_key l) (t_key r)); [discriminate|assumption]|].
  split; [apply grounded_ok, H2|]. split; [apply grounded_ok, H3|]. split; [exact EX|].
  split; [apply unspaced_ok, H4|]. split; [exact L|exact R].
Qed.
Example expression_declared_applies :
  exists c c' l r, reachable_with true (links_safe true) c /\
    reads_as_reduction cfg0 fuel0 c (txt "let (((a d) b) (-> (c (e a))))") l r /\ t_key l <> t_key r /\ grounded l /\ grounded r /\
    execute cfg0 fuel0 (txt "let (((a d) b) (-> (c (e a))))") c = Ok ([], c') /\ no_spaced_text (c_snap c') /\
    t_concept l = None /\ t_concept r = None.
Proof.
  destruct (nested_meaning _ nested_checked) as (ws & c & c' & l & r & S & H). exists c, c', l, r. split; [|exact H].
  exact (history_reachable true base_context ws c (reach_with_base _ _) (sayings_ok _ _ _ _ S)).
Qed.

(** Renaming a concept to an expression makes its name contain a space.  From then on a
    declaration about the pair [x y] is taken for one about the concept with that name: it is
    accepted, nothing is composed of [x] and [y], and the command [x y] still answers [x y]. *)
Definition spaced_commands := ["let ((a b) (-> q))"; "let ((a b) (:= ((x y) d)))"].
Definition spaced_check (rs : list text) (c : ctx) : bool :=
  all_empty rs &&
  match as_reduction c "let ((x y) (-> z))", execute cfg0 fuel0 (txt "let ((x y) (-> z))") c with
  | Some (TBranch w None (TLeaf wx (Some (Committed x)) kx) (TLeaf wy (Some (Committed y)) ky) fv bv, r), Ok ([], c') =>
    negb (key_eqb (t_key (TBranch w None (TLeaf wx (Some (Committed x)) kx) (TLeaf wy (Some (Committed y)) ky) fv bv)) (t_key r)) &&
    grounded_b r &&
    forallb (fun k => match c_spec k with Abstract (Comp l r _ _) _ => negb (Nat.eqb l x && Nat.eqb r y) | _ => true end)
      (concepts (c_snap c')) &&
    answers (txt "x y") (execute cfg0 fuel0 (txt "x y") c')
  | _, _ => false
  end.
Lemma spaced_checked : on_session (run_session cfg0 fuel0 (map txt spaced_commands) base_context) spaced_check = true.
Proof. vm_compute. reflexivity. Qed.
Lemma spaced_meaning rs c :
  spaced_check rs c = true ->
  exists lft rgt c', reads_as_reduction cfg0 fuel0 c (txt "let ((x y) (-> z))") lft rgt /\ t_key lft <> t_key rgt /\
    grounded lft /\ grounded rgt /\ execute cfg0 fuel0 (txt "let ((x y) (-> z))") c = Ok ([], c') /\
    (forall x, ~ stands_for (c_snap c) (c_snap c') lft x) /\
    exists c2, execute cfg0 fuel0 (txt "x y") c' = Ok (txt "x y", c2).
Proof.
  unfold spaced_check. intros H. apply andb_prop in H. destruct H as [_ H].
  destruct (as_reduction c _) as [[[|w [|] [wx [[x|]|] kx|] [wy [[y|]|] ky|] fv bv] r]|] eqn:A; try discriminate.
  apply as_reduction_ok in A. destruct (execute _ _ _ c) as [[[|] c']| | |] eqn:EX; try discriminate.
  apply andb_prop in H. destruct H as [H H4]. apply andb_prop in H. destruct H as [H H3]. apply andb_prop in H. destruct H as [H1 H2].
  do 2 eexists. exists c'. split; [exact A|].
  split; [destruct (key_eqb_spec (t_key (TBranch w None (TLeaf wx (Some (Committed x)) kx) (TLeaf wy (Some (Committed y)) ky) fv bv)) (t_key r));
          [discriminate|assumption]|].
  split; [apply grounded_ok; reflexivity|]. split; [apply grounded_ok, H2|]. split; [first [exact EX|reflexivity]|]. split.
  - intros z Z. inversion Z as [t i T|t l' r' xl xr z' T1 T2 Sl Sr C]; [discriminate|]. subst. injection T2 as <- <-.
    inversion Sl as [t i T|]; [|discriminate]. injection T as <-. subst.
    inversion Sr as [t i T|]; [|discriminate]. injection T as <-. subst.
    destruct C as (k & f1 & f2 & q & L & E). rewrite forallb_forall in H3. specialize (H3 k (nth_error_In _ _ L)).
    rewrite E in H3. cbn in H3. rewrite !Nat.eqb_refl in H3. discriminate.
  - exact (answers_eq _ _ H4).
Qed.
Theorem C53_expression_declared_refuted :
  exists c lft rgt c', reachable true c /\ reads_as_reduction cfg0 fuel0 c (txt "let ((x y) (-> z))") lft rgt /\
    t_key lft <> t_key rgt /\ grounded lft /\ grounded rgt /\ execute cfg0 fuel0 (txt "let ((x y) (-> z))") c = Ok ([], c') /\
    (forall x, ~ stands_for (c_snap c) (c_snap c') lft x) /\
    exists c2, execute cfg0 fuel0 (txt "x y") c' = Ok (txt "x y", c2).
Proof.
  destruct (on_session_ok _ _ spaced_checked) as (rs & c & Er & H).
  destruct (spaced_meaning _ _ H) as (l & r & c' & H').
  exists c, l, r, c'. split; [|exact H'].
  exact (reachable_session cfg0 fuel0 fair0 _ base_context _ c (reach_base true) Er).
Qed.
Print Assumptions C53_expression_declared_refuted.
