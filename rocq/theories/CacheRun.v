(** What a command does to the caches: properties of contexts that hold throughout a command,
    given that every single search and every single change keeps them. *)
From Verif Require Import Snapshot Context MapFacts StoreFacts RangeFacts SearchCaches.
From Coq Require Import List String.
Import ListNotations.
Local Open Scope zia_scope.

Section Run.
  Variables (cfg : config) (fuel : nat).
  (** The property of contexts, and the relation between an earlier and a later context. *)
  Variables (Q : ctx -> Prop) (Rel : ctx -> ctx -> Prop).
  (** What is known of the searches on a context. *)
  Variables (J : ctx -> sstate -> Prop) (I : ctx -> sstate -> sstate -> Prop)
    (P P1 : ctx -> env -> Prop) (Hd : ctx -> nat -> Prop).
  Record run_laws : Prop := {
    r_refl : forall c, Q c -> Rel c c;
    r_trans : forall c1 c2 c3, Rel c1 c2 -> Rel c2 c3 -> Rel c1 c3;
    r_update : forall x c r c', Q c -> update x c = Ok (r, c') -> Q c' /\ Rel c c';
    r_laws : forall c, Q c -> cache_laws cfg (c_snap c) fuel (J c) (I c) (P c) (P1 c) (Hd c);
    r_env : forall c, Q c -> P c (new_env (c_delta c) (c_bound c));
    r_start : forall c, Q c -> J c (start_state (c_cache c) (c_tick c));
    r_end : forall c s, Q c -> J c s -> I c (start_state (c_cache c) (c_tick c)) s ->
      Q (Ctx (c_snap c) (c_delta c) (final_cache s) (c_vars c) (c_bound c) (pinned c) (s_tick s)) /\
      Rel c (Ctx (c_snap c) (c_delta c) (final_cache s) (c_vars c) (c_bound c) (pinned c) (s_tick s));
    r_other : forall c vars bound p, Q c ->
      Q (Ctx (c_snap c) (c_delta c) (c_cache c) vars bound p (c_tick c)) /\
      Rel c (Ctx (c_snap c) (c_delta c) (c_cache c) vars bound p (c_tick c))
  }.
  Hypothesis L : run_laws.

  Definition ck {A} (m : CM A) : Prop := forall c r c', Q c -> m c = Ok (r, c') -> Q c' /\ Rel c c'.
  Lemma ck_ret {A} (a : A) : ck (cret a).
  Proof. intros c r c' H [= _ <-]. split; [exact H|apply (r_refl L), H]. Qed.
  Lemma ck_fail {A} e : ck (cfail e : CM A).
  Proof. intros c r c' H [= _ <-]. split; [exact H|apply (r_refl L), H]. Qed.
  Lemma ck_trans c1 c2 c3 : Q c2 /\ Rel c1 c2 -> Q c3 /\ Rel c2 c3 -> Q c3 /\ Rel c1 c3.
  Proof. intros [_ H] [K1 K2]. split; [exact K1|]. eapply (r_trans L); eassumption. Qed.
  Lemma ck_bind {A B} (m : CM A) (f : A -> CM B) : ck m -> (forall a, ck (f a)) -> ck (cbind m f).
  Proof.
    intros H K c r c' HQ E. unfold cbind in E. apply obind_ok in E. destruct E as ([[a|e] c1] & E1 & E2).
    - pose proof (H _ _ _ HQ E1) as X. eapply ck_trans; [exact X|]. eapply K; [apply X|exact E2].
    - injection E2 as _ <-. exact (H _ _ _ HQ E1).
  Qed.
  Lemma ck_catch {A} (m : CM A) : ck m -> ck (catch m).
  Proof.
    intros H c r c' HQ E. unfold catch in E. apply obind_ok in E. destruct E as ([z c1] & E1 & [= _ <-]).
    exact (H _ _ _ HQ E1).
  Qed.
  Lemma ck_rethrow {A} (r : zres A) : ck (rethrow r).
  Proof. destruct r; [apply ck_ret|apply ck_fail]. Qed.
  Lemma ck_lift {A} (m : ctx -> outcome A) : ck (clift m).
  Proof.
    intros c r c' H E. unfold clift in E.
    destruct (m c); try discriminate; injection E as _ <-; (split; [exact H|apply (r_refl L), H]).
  Qed.
  Lemma ck_need : ck need_delta.
  Proof.
    intros c r c' H E. unfold need_delta in E.
    destruct (pinned c); injection E as _ <-; (split; [exact H|apply (r_refl L), H]).
  Qed.
  Lemma ck_update x : ck (update x).
  Proof. intros c r c'. apply (r_update L). Qed.
  Lemma ck_irreducible {A} (m alt : CM A) : ck m -> ck alt -> ck (on_irreducible m alt).
  Proof.
    intros H K. unfold on_irreducible. apply ck_bind; [apply ck_catch, H|].
    intros [a|e]; [apply ck_rethrow|]. destruct e; first [exact K|apply ck_rethrow].
  Qed.
  Lemma ck_search {A} (f : ctx -> env -> SM A) :
    (forall c e, Q c -> P c e -> kp (J c) (I c) (f c e)) -> ck (fun c => with_search (f c) c).
  Proof.
    intros H c r c' HQ E. unfold with_search in E.
    destruct (f c (new_env (c_delta c) (c_bound c)) (start_state (c_cache c) (c_tick c)))
      as [[a s]|e|x|] eqn:X; try discriminate.
    - injection E as _ <-.
      destruct (H c _ HQ (r_env L _ HQ) _ _ _ (r_start L _ HQ) X) as [H1 H2]. apply (r_end L); assumption.
    - injection E as _ <-. split; [exact HQ|apply (r_refl L), HQ].
  Qed.
  Lemma ck_fuel {A} : ck (fun _ => OutOfFuel : outcome (zres A * ctx)).
  Proof. intros c r c' _ E. discriminate. Qed.
  Create HintDb ck.
  Hint Constants Opaque : ck.
  Hint Resolve ck_ret ck_fail ck_rethrow ck_lift ck_need ck_update ck_fuel : ck.
  Ltac step :=
    cbv beta zeta;
    match goal with
    | |- ck (cbind _ _) => apply ck_bind; [|intros ?]
    | |- ck (catch _) => apply ck_catch
    | |- ck (on_irreducible _ _) => apply ck_irreducible
    | |- ck (match ?x with _ => _ end) => destruct x
    | |- ck _ => solve [eauto 4 with ck]
    end.
  Ltac t := repeat step.

  (** *** Changing the store *)
  Lemma ck_read id : ck (c_read cfg id).
  Proof. unfold c_read. t. Qed.
  Lemma ck_concrete_id cc : ck (c_concrete_id cfg cc).
  Proof. unfold c_concrete_id. t. Qed.
  Lemma ck_concrete_type id : ck (c_concrete_type cfg id).
  Proof. unfold c_concrete_type. t. Qed.
  Hint Resolve ck_read ck_concrete_id ck_concrete_type : ck.
  Lemma ck_concrete_type_of x : ck (c_concrete_type_of cfg x).
  Proof. unfold c_concrete_type_of. t. Qed.
  Lemma ck_new_labelled s cc l : ck (new_labelled_concept cfg s cc l).
  Proof. unfold new_labelled_concept. t. Qed.
  Lemma ck_delete_reduction c s : ck (delete_reduction cfg c s).
  Proof. unfold delete_reduction. t. Qed.
  Lemma ck_update_reduction c s r : ck (update_reduction cfg fuel c s r).
  Proof. unfold update_reduction. t. Qed.
  Lemma ck_find_or_insert l r : ck (find_or_insert_composition cfg l r).
  Proof. unfold find_or_insert_composition. t. Qed.
  Hint Resolve ck_concrete_type_of ck_new_labelled ck_delete_reduction ck_update_reduction ck_find_or_insert : ck.
  Lemma ck_label c s1 s2 : ck (label cfg fuel c s1 s2).
  Proof. unfold label. t. Qed.
  Lemma ck_unlabel c s : ck (unlabel cfg c s).
  Proof. unfold unlabel. t. Qed.
  Hint Resolve ck_label ck_unlabel : ck.
  Lemma ck_relabel c s1 s2 : ck (relabel cfg fuel c s1 s2).
  Proof. unfold relabel. t. Qed.
  Hint Resolve ck_relabel : ck.
  Lemma ck_concept_from_ast x : ck (concept_from_ast cfg fuel x).
  Proof. induction x as [s c k|s c l IHl r IHr fv bv]; cbn [concept_from_ast]; t. Qed.
  Hint Resolve ck_concept_from_ast : ck.
  Lemma ck_insert_composition c l r : ck (insert_composition cfg fuel c l r).
  Proof. unfold insert_composition. t. Qed.
  Hint Resolve ck_insert_composition : ck.
  Lemma ck_redefine c l r : ck (redefine cfg fuel c l r).
  Proof. unfold redefine. t. Qed.
  Hint Resolve ck_redefine : ck.
  Lemma ck_redefine_composition c l r s1 s2 : ck (redefine_composition cfg fuel c l r s1 s2).
  Proof. unfold redefine_composition. t. Qed.
  Lemma ck_define_new_syntax s l r : ck (define_new_syntax cfg fuel s l r).
  Proof. unfold define_new_syntax. t. Qed.
  Lemma ck_blindly c : ck (blindly_remove_concept c).
  Proof. unfold blindly_remove_concept. t. Qed.
  Hint Resolve ck_redefine_composition ck_define_new_syntax ck_blindly : ck.
  Lemma ck_remove_string s : ck (remove_string cfg s).
  Proof. unfold remove_string. t. Qed.
  Hint Resolve ck_remove_string : ck.
  Lemma ck_remove_concept c : ck (remove_concept cfg c).
  Proof. unfold remove_concept. t. Qed.
  Hint Resolve ck_remove_concept : ck.
  Lemma ck_try_delete c s : ck (try_delete_concept cfg c s).
  Proof. unfold try_delete_concept. t. Qed.
  Hint Resolve ck_try_delete : ck.

  (** *** Searching *)
  Let ops_kp_of c (H : Q c) := search_kp _ _ _ _ _ _ _ _ (r_laws L c H) fuel.
  Let ops_kp_up c (H : Q c) := search_kp_up_to _ _ _ _ _ _ _ _ (r_laws L c H) fuel.
  Lemma ck_shuffle {A} (l : list A) : ck (c_shuffle cfg l).
  Proof.
    unfold c_shuffle. apply (ck_search (fun _ _ => shuffle cfg l)). intros c e Hc _.
    exact (shuffle_kp _ _ _ _ _ _ _ _ (r_laws L c Hc) A l).
  Qed.
  Lemma ck_combine l r : ck (c_combine cfg fuel l r).
  Proof.
    unfold c_combine. apply (ck_search (fun c e => combine_ast cfg (c_snap c) (ops_of cfg fuel c) e l r)).
    intros c e Hc He. exact (combine_ast_kp _ _ _ _ _ _ _ _ (r_laws L c Hc) fuel (ops_kp_up c Hc) e l r He).
  Qed.
  Lemma ck_to_ast id : ck (c_to_ast cfg fuel id).
  Proof.
    unfold c_to_ast. apply (ck_search (fun c e => o_to_ast (ops_of cfg fuel c) e id)).
    intros c e Hc He. exact (kp_to_ast _ _ _ _ (ops_kp_of c Hc) e id He).
  Qed.
  Lemma ck_assoc x : ck (c_assoc cfg fuel x).
  Proof.
    unfold c_assoc. apply (ck_search (fun c e => o_assoc (ops_of cfg fuel c) e x)).
    intros c e Hc He. exact (kp_assoc _ _ _ _ (ops_kp_of c Hc) e x He).
  Qed.
  Lemma ck_concrete_ast cc : ck (c_concrete_ast cfg fuel cc).
  Proof.
    unfold c_concrete_ast. apply (ck_search (fun c e => concrete_ast cfg (c_snap c) (ops_of cfg fuel c) e cc)).
    intros c e Hc He. exact (concrete_ast_kp _ _ _ _ _ _ _ _ (r_laws L c Hc) fuel (ops_kp_up c Hc) e cc He).
  Qed.
  Lemma ck_expand x : ck (c_expand cfg fuel x).
  Proof.
    unfold c_expand. apply (ck_search (fun c e => o_expand (ops_of cfg fuel c) e x)).
    intros c e Hc He. exact (kp_expand _ _ _ _ (ops_kp_of c Hc) e x He).
  Qed.
  Lemma ck_reduce x : ck (c_reduce cfg fuel x).
  Proof.
    unfold c_reduce. apply (ck_search (fun c e => o_reduce (ops_of cfg fuel c) e x)).
    intros c e Hc He. exact (kp_reduce _ _ _ _ (ops_kp_of c Hc) e x He).
  Qed.
  Lemma ck_normal_form x : ck (c_normal_form cfg fuel x).
  Proof.
    unfold c_normal_form. apply (ck_search (fun c e => smap fst (o_nf (ops_of cfg fuel c) e x None))).
    intros c e Hc He. apply (kp_smap _ _ _ _ _ _ _ _ (r_laws L c Hc)).
    exact (kp_nf _ _ _ _ (ops_kp_of c Hc) e x None He).
  Qed.
  Lemma ck_inferred x : ck (c_inferred cfg fuel x).
  Proof.
    unfold c_inferred. apply (ck_search (fun c e =>
      find_examples_of_inferred_reduction cfg (c_snap c) fuel (ops_of cfg fuel c) e x)).
    intros c e Hc He. exact (inferred_kp _ _ _ _ _ _ _ _ (r_laws L c Hc) fuel (ops_kp_up c Hc) e x He).
  Qed.
  Lemma ck_contract l r : ck (c_contract cfg fuel l r).
  Proof.
    unfold c_contract. apply (ck_search (fun c e =>
      contract_pair cfg (c_snap c) fuel (ops_of cfg fuel c) e l r)).
    intros c e Hc He. exact (contract_pair_kp _ _ _ _ _ _ _ _ (r_laws L c Hc) fuel (ops_kp_up c Hc) e l r He).
  Qed.
  Hint Resolve ck_shuffle ck_combine ck_to_ast ck_assoc ck_concrete_ast ck_expand ck_reduce
    ck_normal_form ck_inferred ck_contract : ck.

  (** *** Reading a command *)
  Lemma ck_leaf k s c : ck (ast_from_syntax_leaf cfg fuel k s c).
  Proof. unfold ast_from_syntax_leaf. t. Qed.
  Lemma ck_others f : (forall c, exists v b p, f c = Ctx (c_snap c) (c_delta c) (c_cache c) v b p (c_tick c)) ->
    ck (fun c => Ok (Val tt, f c)).
  Proof.
    intros H c r c' HQ [= _ <-]. destruct (H c) as (v & b & p & ->). apply (r_other L), HQ.
  Qed.
  Lemma ck_pair l r : ck (ast_from_pair cfg fuel l r).
  Proof.
    unfold ast_from_pair. step; [t|]. step; [|t].
    destruct (_ && _)%bool; [|t].
    apply (ck_others (fun c => Ctx (c_snap c) (c_delta c) (c_cache c) (c_vars c)
                                     (sadd key_eqb (t_key l) (c_bound c)) (pinned c) (c_tick c))).
    intros c. eauto.
  Qed.
  Hint Resolve ck_leaf ck_pair : ck.
  Lemma ck_related ids es : forall acc, ck (related_concepts cfg ids es acc).
  Proof. induction es as [|[r comp] es IH]; intros acc; cbn [related_concepts]; t. Qed.
  Lemma ck_precedes a b : ck (precedes cfg fuel a b).
  Proof.
    unfold precedes. step; [|t].
    apply (ck_search (fun c e =>
            let o := ops_of cfg fuel c in
            sbind (concrete_ast cfg (c_snap c) o e CPrecedes) (fun p =>
            sbind (slift (unwrap p "precedes: unwrap")) (fun p =>
            sbind (o_to_ast o e a) (fun ta =>
            sbind (o_to_ast o e b) (fun tb =>
            sbind (combine_ast cfg (c_snap c) o e p tb) (fun pb =>
            sbind (combine_ast cfg (c_snap c) o e ta pb) (fun apb =>
            smap fst (o_nf o e apb None))))))))).
    intros c e Hc He. pose proof (r_laws L c Hc) as LC. pose proof (ops_kp_up c Hc) as O. cbv zeta.
    apply (kp_bind _ _ _ _ _ _ _ _ LC); [exact (concrete_ast_kp _ _ _ _ _ _ _ _ LC fuel O e _ He)|intros p].
    apply (kp_lifted (J c) (I c)). intros p' _.
    apply (kp_bind _ _ _ _ _ _ _ _ LC); [exact (kp_to_ast _ _ _ _ (ops_kp_of c Hc) e a He)|intros ta].
    apply (kp_bind _ _ _ _ _ _ _ _ LC); [exact (kp_to_ast _ _ _ _ (ops_kp_of c Hc) e b He)|intros tb].
    apply (kp_bind _ _ _ _ _ _ _ _ LC); [exact (combine_ast_kp _ _ _ _ _ _ _ _ LC fuel O e _ _ He)|intros pb].
    apply (kp_bind _ _ _ _ _ _ _ _ LC); [exact (combine_ast_kp _ _ _ _ _ _ _ _ LC fuel O e _ _ He)|intros apb].
    apply (kp_smap _ _ _ _ _ _ _ _ LC). exact (kp_nf _ _ _ _ (ops_kp_of c Hc) e apb None He).
  Qed.
  Hint Resolve ck_related ck_precedes : ck.
  Lemma ck_place c all lo : ck (place_concept cfg fuel c all lo).
  Proof. induction lo as [|l lo IH]; cbn [place_concept]; t. Qed.
  Hint Resolve ck_place : ck.
  Lemma ck_lowest cs : forall lo, ck (lowest_concepts cfg fuel cs lo).
  Proof. induction cs as [|c cs IH]; intros lo; cbn [lowest_concepts]; t. Qed.
  Lemma ck_positions ts cs : ck (positions_of cfg ts cs).
  Proof. induction cs as [|c cs IH]; cbn [positions_of]; t. Qed.
  Hint Resolve ck_lowest ck_positions : ck.
  Lemma ck_lowest_precedence ts : ck (lowest_precedence_info cfg fuel ts).
  Proof. unfold lowest_precedence_info. t. Qed.
  Lemma ck_common ts : forall a, ck (common_associativity cfg fuel a ts).
  Proof. induction ts as [|x ts IH]; intros a; cbn [common_associativity]; t. Qed.
  Hint Resolve ck_lowest_precedence ck_common : ck.
  Section Lists.
    Variable parse : list tree -> CM tree.
    Hypothesis H : forall ts, ck (parse ts).
    Lemma ck_try_fold ts st lp a : ck (try_fold_handler cfg fuel parse ts st lp a).
    Proof. unfold try_fold_handler. t. Qed.
    Hint Resolve ck_try_fold : ck.
    Lemma ck_fold_right ts lps : forall mn tl, ck (fold_right_assoc cfg fuel parse ts mn tl lps).
    Proof. induction lps as [|lp lps IH]; intros mn tl; cbn [fold_right_assoc]; t. Qed.
    Lemma ck_fold_left ts lps : forall st, ck (fold_left_assoc cfg fuel parse ts st lps).
    Proof. induction lps as [|lp lps IH]; intros st; cbn [fold_left_assoc]; t. Qed.
  End Lists.
  Lemma ck_heap l : ck (heap_iter cfg l).
  Proof. unfold heap_iter. t. Qed.
  Hint Resolve ck_fold_right ck_fold_left ck_heap : ck.
  Lemma ck_list n : forall ts, ck (ast_from_syntax_list cfg fuel n ts).
  Proof. induction n as [|n IH]; intros ts; cbn [ast_from_syntax_list]; t. Qed.
  Lemma ck_parse_list ts : ck (parse_list cfg fuel ts).
  Proof. unfold parse_list. apply ck_list. Qed.
  Hint Resolve ck_parse_list : ck.
  Fixpoint ck_nested (n : nested) : ck (ast_from_nested_syntax cfg fuel n).
  Proof.
    destruct n as [k s c|cs s]; cbn [ast_from_nested_syntax]; [t|]. apply ck_bind.
    - induction cs as [|n cs IH]; [apply ck_ret|]. apply ck_bind; [apply ck_nested|intros x].
      apply ck_bind; [exact IH|intros xs; apply ck_ret].
    - intros ts. t.
  Qed.
  Lemma ck_nested_list n : ck (syntax_list_for_nested_syntax cfg fuel n).
  Proof.
    destruct n as [k s c|cs s]; cbn; [t|].
    induction cs as [|n cs IH]; [apply ck_ret|]. apply ck_bind; [apply ck_nested|intros x].
    apply ck_bind; [exact IH|intros xs; apply ck_ret].
  Qed.
  Hint Resolve ck_nested_list : ck.
  Lemma ck_expression s : ck (ast_from_expression cfg fuel s).
  Proof. unfold ast_from_expression, c_lex, c_nest. t. Qed.

  (** *** Running a command *)
  Lemma ck_variables x : ck (create_variable_concepts x).
  Proof.
    induction x as [s c k|s c l IHl r IHr fv bv]; cbn [create_variable_concepts].
    - destruct k; try (t; fail). intros c1 r c2 HQ E. destruct (aget text_eqb s (c_vars c1)) as [id|].
      + injection E as _ <-. split; [exact HQ|apply (r_refl L), HQ].
      + revert E. generalize (if smem key_eqb (t_key (TLeaf s c LVariable)) (c_bound c1)
                               then @NBoundVariable cid else NFreeVariable). intros nd.
        match goal with |- ?m c1 = _ -> _ => assert (K : ck m) end.
        { apply ck_bind; [t|intros _]. apply ck_bind; [t|intros id]. intros c3 r3 c4 H3 [= _ <-].
          apply (r_other L), H3. }
        exact (K _ _ _ HQ).
    - t.
  Qed.
  Lemma ck_try_removing x : ck (try_removing_reduction cfg x).
  Proof. unfold try_removing_reduction. t. Qed.
  Hint Resolve ck_expression ck_variables ck_try_removing : ck.
  Lemma ck_execute_reduction x nf : ck (execute_reduction cfg fuel x nf).
  Proof. unfold execute_reduction. t. Qed.
  Lemma ck_define new old : ck (define cfg fuel new old).
  Proof. unfold define. t. Qed.
  Hint Resolve ck_execute_reduction ck_define : ck.
  Lemma ck_execute_composition new old : ck (execute_composition cfg fuel new old).
  Proof. unfold execute_composition. t. Qed.
  Hint Resolve ck_execute_composition : ck.
  Lemma ck_match n : forall l rl rr, ck (match_righthand_pair cfg fuel n l rl rr).
  Proof. induction n as [|n IH]; intros l rl rr; cbn [match_righthand_pair]; t. Qed.
  Hint Resolve ck_match : ck.
  Lemma ck_pin {A} (m : CM A) : ck m -> ck (with_pin m).
  Proof.
    intros H c r c' HQ E. unfold with_pin in E. apply obind_ok in E. destruct E as ([z c1] & E1 & [= _ <-]).
    pose proof (r_other L c (c_vars c) (c_bound c) true HQ) as X.
    pose proof (H _ _ _ (proj1 X) E1) as Y. eapply ck_trans; [exact X|]. eapply ck_trans; [exact Y|].
    apply (r_other L), Y.
  Qed.
  Section Calls.
    Variables (cl : tree -> CM text) (cp : tree -> tree -> CM text).
    Hypotheses (Hl : forall x, ck (cl x)) (Hp : forall l r, ck (cp l r)).
    Lemma ck_reduce_and_call l r : ck (reduce_and_call_pair cfg fuel cp l r).
    Proof. unfold reduce_and_call_pair. t. Qed.
    Lemma ck_try_reducing x : ck (try_reducing_then_call cfg fuel cl x).
    Proof. unfold try_reducing_then_call. pose proof (ck_pin (A:=text)). t. Qed.
    Lemma ck_call_let r : ck (call_let cfg fuel r).
    Proof. unfold call_let. t. Qed.
    Hint Resolve ck_reduce_and_call ck_try_reducing ck_call_let : ck.
    Lemma ck_call_step x : ck (call_step cfg fuel cl cp x).
    Proof. unfold call_step. t. Qed.
    Lemma ck_call_pair_step l r : ck (call_pair_step cfg fuel cl cp l r).
    Proof. unfold call_pair_step. t. Qed.
  End Calls.
  Lemma ck_calls n : (forall x, ck (fst (calls cfg fuel n) x)) /\ (forall l r, ck (snd (calls cfg fuel n) l r)).
  Proof.
    induction n as [|n [IH1 IH2]]; cbn [calls]; [split; intros; apply ck_fuel|].
    split; intros; cbn; [apply ck_call_step|apply ck_call_pair_step]; auto.
  Qed.
  Lemma ck_run s : ck (run_command cfg fuel s).
  Proof.
    unfold run_command. step; [t|]. step; [t|]. step.
    - intros c r c' HQ E. apply obind_ok in E. destruct E as ([[x|e] c1] & E1 & E); [|discriminate].
      injection E as _ <-. eapply ck_variables; [exact HQ|exact E1].
    - unfold call. apply ck_calls.
  Qed.
End Run.
