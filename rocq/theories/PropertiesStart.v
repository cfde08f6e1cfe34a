(** Starting the program (C38).  Full statement: for every fair [cfg] there is fuel with which
    [new_context cfg fuel = Ok c], and [all_named (c_snap c)].  Proved here: the whole of it
    when hash collections are iterated in insertion order, in both builds; and for every
    order, that the built-in concepts are created and named correctly, and that they are
    still the same concepts in whatever context the bootstrap commands produce.  Missing:
    that the bootstrap commands succeed, and leave the names alone, for every order. *)
From Verif Require Import Start Snapshot StoreSpec NameSpec MapFacts AstFacts StoreFacts RangeFacts
  History StoreLaws Sample Witness NameWitness Build.
From Coq Require Import String List Bool Relations.
Import ListNotations.
Local Open Scope string_scope.

(** The names the language starts with, and what they mean (in the order of
    zia/src/concepts/mod.rs:729-744). *)
Definition names : list (string * cct) :=
  [("label_of", CLabel); (":=", CDefine); ("->", CReduction); ("let", CLet); ("true", CTrue);
   ("false", CFalse); ("assoc", CAssociativity); ("right", CRight); ("left", CLeft);
   (">", CGreaterThan); ("=>", CImplication); ("exists_such_that", CExistsSuchThat);
   ("precedes", CPrecedes); ("forget", CForget)].

(** [t] is the name of the built-in concept [cc], in both directions: the concept is labelled
    [t], and it is the one concept found under [t]. *)
Definition names_built_in (s : snapshot) (t : text) (cc : cct) : Prop :=
  exists n, built_in s n cc /\ carries_label s n t /\ found_under s t n /\
    forall n', found_under s t n' -> n' = n.
Definition all_named (s : snapshot) : Prop :=
  forall t cc, In (t, cc) names -> names_built_in s (txt t) cc.

(** Deciding it, where the string concept of [t] reduces from a single unreferenced concept. *)
Definition named_b (s : snapshot) (t : text) (cc : cct) : bool :=
  match aget text_eqb t (string_map s) with
  | Some str =>
    match option_map (@reduces_from nat) (lookup s str) with
    | Some [comp] =>
      match option_map (@reduces_from nat) (lookup s comp), composition_of s comp with
      | Some [], Some (l, n) =>
        match built_in_of s l, built_in_of s n with
        | Some CLabel, Some cc' => cct_eqb cc cc' && carries s n t
        | _, _ => false
        end
      | _, _ => false
      end
    | _ => false
    end
  | None => false
  end.
Lemma built_in_of_built_in s n cc : built_in_of s n = Some cc -> built_in s n cc.
Proof.
  unfold built_in_of, built_in. destruct (lookup s n) as [c|]; [|discriminate].
  intros E. exists c. split; [reflexivity|]. destruct (c_spec c); congruence.
Qed.
Lemma named_b_ok s t cc : named_b s t cc = true -> names_built_in s t cc.
Proof.
  unfold named_b. destruct (aget text_eqb t (string_map s)) as [str|] eqn:A; [|discriminate].
  destruct (lookup s str) as [cs|] eqn:L1; [|discriminate]. cbn [option_map].
  destruct (reduces_from cs) as [|comp [|]] eqn:R1; try discriminate.
  destruct (lookup s comp) as [cm|] eqn:L2; [|discriminate]. cbn [option_map].
  destruct (reduces_from cm) eqn:R2; [|discriminate].
  destruct (composition_of s comp) as [[l n]|] eqn:C; [|discriminate].
  destruct (built_in_of s l) as [[]|] eqn:B1; try discriminate.
  destruct (built_in_of s n) as [cc'|] eqn:B2; [|discriminate].
  intros E. apply andb_prop in E. destruct E as [E1 E2].
  assert (cc = cc') by (destruct cc, cc'; try discriminate; reflexivity). subst cc'.
  apply built_in_of_built_in in B1, B2. apply composition_of_composed in C.
  assert (ONE : forall x y, clos_trans nat (lists_reduction_from s) x y ->
            (x = str -> y = comp) /\ (x = comp -> False)).
  { induction 1 as [x y (c & La & Ia)|x y z _ IH1 _ IH2].
    - split; intros ->.
      + rewrite L1 in La. injection La as <-. rewrite R1 in Ia. destruct Ia as [<-|[]]. reflexivity.
      + rewrite L2 in La. injection La as <-. rewrite R2 in Ia. destruct Ia.
    - split; intros ->.
      + destruct (proj2 IH2). apply (proj1 IH1). reflexivity.
      + apply (proj2 IH1). reflexivity. }
  exists n. split; [exact B2|]. split; [apply carries_label_of; exact E2|]. split.
  - exists str, comp, l. split; [exact A|]. split; [|auto].
    apply t_step. exists cs. split; [exact L1|]. rewrite R1. left. reflexivity.
  - intros n' (str' & comp' & lab & A' & T & C' & _). rewrite A in A'. injection A' as <-.
    apply ONE in T. destruct T as [T _]. rewrite (T eq_refl) in C'.
    destruct C as (c1 & fv1 & bv1 & red1 & Lc & Sc), C' as (c2 & fv2 & bv2 & red2 & Lc' & Sc').
    rewrite Lc in Lc'. injection Lc' as <-. rewrite Sc in Sc'. congruence.
Qed.
Definition all_named_b (s : snapshot) : bool := forallb (fun '(t, cc) => named_b s (txt t) cc) names.
Lemma all_named_ok s : all_named_b s = true -> all_named s.
Proof.
  intros E t cc I. apply named_b_ok. unfold all_named_b in E. rewrite forallb_forall in E.
  exact (E _ I).
Qed.
Lemma base_named : all_named (c_snap base_context).
Proof. apply all_named_ok. vm_compute. reflexivity. Qed.
Lemma start_named : all_named (c_snap context0).
Proof. apply all_named_ok. vm_compute. reflexivity. Qed.

(** When hash collections are iterated in the order of insertion, both builds start, in the
    same state, and every name denotes its built-in concept. *)
Theorem C38_a_new_context_is_consistent_partial :
  exists c, new_context (debug (fun _ _ l => l)) fuel0 = Ok c /\
    new_context (release (fun _ _ l => l)) fuel0 = Ok c /\ all_named (c_snap c).
Proof.
  exists context0. split; [exact context0_eq|]. split; [|exact start_named].
  destruct (new_context_like (fun _ _ l => l) fuel0) as [[s [_ P]]|P].
  - pose proof (eq_trans (eq_sym context0_eq) P). discriminate.
  - exact (eq_trans (eq_sym P) context0_eq).
Qed.
Print Assumptions C38_a_new_context_is_consistent_partial.

(** For every order and both builds: naming the built-in concepts succeeds, always with the
    same result, in which every name denotes its built-in concept. *)
Theorem C38_naming_succeeds_in_every_order_partial :
  forall cfg, exists c1 c2,
    label_concrete_concepts cfg default_ctx = Ok (Val tt, c1) /\ commit cfg c1 = Ok (Val tt, c2) /\
    all_named (c_snap c2) /\
    forall fuel, new_context cfg fuel =
      obind (run_setup cfg fuel setup_commands c2) (fun '(r, c) =>
        match r with Val _ => Ok c | Fail e => Err e end).
Proof.
  intros cfg. pose proof (base_context_eq cfg) as B. apply obind_ok in B. destruct B as ([x c1] & B1 & B2).
  destruct x as [[]|]; [|discriminate]. exists c1, base_context. split; [exact B1|].
  split; [exact B2|]. split; [exact base_named|]. intros fuel.
  unfold new_context, setup, cbind. rewrite B1. cbn [obind]. rewrite B2. reflexivity.
Qed.
Print Assumptions C38_naming_succeeds_in_every_order_partial.

(** For every order and both builds: if the bootstrap commands succeed, the built-in concepts
    of the new context are those that were named, and there are no others. *)
Theorem C38_bootstrap_keeps_the_built_in_concepts_partial :
  forall cfg fuel c, fair cfg -> new_context cfg fuel = Ok c ->
    forall cc, exists n, built_in (c_snap c) n cc /\ built_in (c_snap base_context) n cc /\
      forall n', built_in (c_snap c) n' cc -> n' = n.
Proof.
  intros cfg fuel c F E cc.
  destruct (reachable_built_in (dbg cfg) c (reachable_new cfg fuel F c E) cc) as (n & A & B & C & _).
  exists n. auto.
Qed.
Print Assumptions C38_bootstrap_keeps_the_built_in_concepts_partial.

Example C38_example :
  exists c, new_context cfg0 fuel0 = Ok c /\ size (c_snap c) = 80 /\
    found_under (c_snap c) (txt "precedes") 38 /\ built_in (c_snap c) 38 CPrecedes.
Proof.
  exists context0. split; [exact context0_eq|]. split; [reflexivity|].
  destruct (start_named "precedes" CPrecedes) as (n & A & _ & B & _); [cbn; tauto|].
  assert (H : built_in (c_snap context0) 38 CPrecedes) by (eexists; split; reflexivity).
  split; [|exact H].
  destruct (reachable_built_in true context0 context0_reachable CPrecedes) as (k & _ & _ & U & _).
  rewrite <- (U n A), (U 38 H) in B || (rewrite (U n A), <- (U 38 H) in B). exact B.
Qed.
