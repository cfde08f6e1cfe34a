(** Normal forms: what evaluation ends with. *)
From Verif Require Import Snapshot Search Context StoreFacts AstFacts MapFacts Questions.
From Coq Require Import String List PeanoNat Lia.
Import ListNotations.
Local Open Scope zia_scope.

Section Chains.
  Variable cfg : config.
  Variable snap : snapshot.
  Variable rf : nat.
  Notation ops n := (search cfg snap rf n).

  (** Zero or more steps. *)
  Inductive ends (red : tree -> tree -> Prop) : tree -> tree -> Prop :=
  | EndsHere t : ends red t t
  | EndsStep l m r : red l m -> ends red m r -> ends red l r.
  (** The evaluator of the environment [e] finds no reduction of [t] in some state of the search. *)
  Definition irreducible (e : env) (t : tree) : Prop :=
    exists n s s', o_reduce (ops n) e t s = Ok (None, s').

  Lemma normal_form_ends n : forall e t why s t' why' s',
    o_nf (ops n) e t why s = Ok ((t', why'), s') ->
    ends (reduces_to cfg snap rf e) t t' /\ irreducible e t'.
  Proof.
    induction n as [|n IH]; intros e t why s t' why' s' E; [discriminate|]. cbn [search step o_nf] in E.
    unfold normal_form in E. apply sb in E. destruct E as (r & s1 & E1 & E). destruct r as [[u w]|].
    - destruct (IH _ _ _ _ _ _ _ E) as [H K]. split; [|exact K]. eapply EndsStep; [|exact H].
      exists n, s, w, s1. exact E1.
    - injection E as <- <- <-. split; [constructor|]. exists n, s, s1. exact E1.
  Qed.

  (** [t] stands for a concept that is not built in and has the declared reduction [n']; no implication
      is found that reduces it and its reduction is not cached.  The next tree is that of [n']. *)
  Inductive declared_step (n : nat) (e : env) (t : tree) (s : sstate) (u : tree) (s2 : sstate) : Prop :=
  | DeclaredStep c m n' s1 :
      t_concept t = Some c ->
      lookup_red (e_reds e) (t_key t) (s_red s) = None ->
      concrete_concept_type cfg snap (e_delta e) c = Ok None ->
      read_concept cfg snap (e_delta e) c = Ok m ->
      (if smem cid_eqb c (e_infer e) then s1 = s else infer_reduction cfg snap rf (ops n) e m s = Ok (None, s1)) ->
      m_reduction m = Some n' ->
      is_leaf_variable_concept cfg snap e n' s1 = Ok (false, s1) ->
      o_to_ast (ops n) e n' s1 = Ok (u, s2) ->
      declared_step n e t s u s2.
  Lemma declared_reduces n e t s u s2 r s' :
    declared_step n e t s u s2 -> o_reduce (ops (S n)) e t s = Ok (r, s') ->
    r = Some (u, RExplicit) /\ insert_reduction e t r s2 = Ok (tt, s').
  Proof.
    intros [c m n' s1 C L T R I M V A] E. cbn [search step o_reduce] in E. unfold reduce in E.
    apply sb in E. destruct E as (x & s3 & E1 & E). unfold cached_reduction in E1. rewrite L in E1. injection E1 as <- <-.
    rewrite C in E. apply sb in E. destruct E as (x & s3 & E1 & E).
    unfold concrete_type, slift in E1. rewrite T in E1. injection E1 as <- <-.
    apply sb in E. destruct E as (rr & s3 & E1 & E). unfold or_else in E1 at 1. cbn [opt_then] in E1.
    apply sb in E1. destruct E1 as (x & s4 & E1 & E2).
    unfold reduce_concept in E1. apply sb in E1. destruct E1 as (m' & s5 & E1 & E3).
    unfold read, slift in E1. rewrite R in E1. injection E1 as <- <-.
    unfold or_else in E3. apply sb in E3. destruct E3 as (y & s5 & E3 & E4).
    assert (Y : y = None /\ s5 = s1).
    { destruct (smem cid_eqb c (e_infer e)); [injection E3 as <- <-; auto|]. rewrite I in E3. injection E3 as <- <-. auto. }
    destruct Y as [-> ->]. rewrite M in E4. cbn [opt_then] in E4. apply sb in E4. destruct E4 as (v & s6 & E4 & E5).
    rewrite V in E4. injection E4 as <- <-. unfold and_then in E5. apply sb in E5. destruct E5 as (w & s6 & E5 & E6).
    apply sb in E5. destruct E5 as (w' & s7 & E5 & [= <- <-]). rewrite A in E5. injection E5 as <- <-.
    injection E6 as <- <-. injection E2 as <- <-.
    apply sb in E. destruct E as ([] & s8 & E & [= <- <-]). auto.
  Qed.

  (** [t] is followed along declared reductions to [w], which has none.  [n] is the fuel left. *)
  Inductive declared_chain (e : env) : nat -> tree -> sstate -> tree -> Prop :=
  | ChainEnd n t s s' : o_reduce (ops n) e t s = Ok (None, s') -> declared_chain e (S n) t s t
  | ChainStep n t s u s1 s2 w :
      declared_step n e t s u s1 -> insert_reduction e t (Some (u, RExplicit)) s1 = Ok (tt, s2) ->
      declared_chain e (S n) u s2 w -> declared_chain e (S (S n)) t s w.
  Lemma chain_answer e n t s w : declared_chain e n t s w -> forall why r s',
    o_nf (ops n) e t why s = Ok (r, s') -> fst r = w.
  Proof.
    induction 1 as [n t s s' E|n t s u s1 s2 w D I C IH]; intros why r s'' H; cbn [search step o_nf] in H;
      unfold normal_form in H; apply sb in H; destruct H as (x & s3 & E1 & H).
    - rewrite E in E1. injection E1 as <- <-. injection H as <- _. reflexivity.
    - destruct (declared_reduces n e t s u s1 x s3 D E1) as [-> J]. rewrite I in J. injection J as <-.
      exact (IH _ _ _ H).
  Qed.
End Chains.

(** Following a chain by computation. *)
Definition next_declared (cfg : config) (snap : snapshot) (rf n : nat) (e : env) (t : tree) (s : sstate)
  : option (tree * sstate) :=
  match t_concept t with
  | Some c =>
    match lookup_red (e_reds e) (t_key t) (s_red s), concrete_concept_type cfg snap (e_delta e) c,
          read_concept cfg snap (e_delta e) c with
    | None, Ok None, Ok m =>
      if smem cid_eqb c (e_infer e) then None else
      match infer_reduction cfg snap rf (search cfg snap rf n) e m s, m_reduction m with
      | Ok (None, s1), Some n' =>
        match is_leaf_variable_concept cfg snap e n' s1, o_to_ast (search cfg snap rf n) e n' s1 with
        | Ok (false, _), Ok (u, s2) => Some (u, s2)
        | _, _ => None
        end
      | _, _ => None
      end
    | _, _, _ => None
    end
  | None => None
  end.
Lemma leaf_variable_state cfg snap e n s b s' : is_leaf_variable_concept cfg snap e n s = Ok (b, s') -> s' = s.
Proof.
  unfold is_leaf_variable_concept, is_free_variable, composition_of_concept, smap, read. intros E.
  apply sb in E. destruct E as (f & s1 & E1 & E). apply sb in E1. destruct E1 as (m & s2 & E1 & [= <- <-]).
  unfold slift in E1. apply obind_ok in E1. destruct E1 as (x & _ & [= <- <-]).
  destruct (m_free x && _)%bool.
  - apply sb in E. destruct E as (o & s3 & E & [= <- <-]). apply sb in E. destruct E as (y & s4 & E & [= <- <-]).
    unfold slift in E. apply obind_ok in E. destruct E as (z & _ & [= _ <-]). reflexivity.
  - injection E as <- <-. reflexivity.
Qed.
Lemma next_declared_ok cfg snap rf n e t s u s2 :
  next_declared cfg snap rf n e t s = Some (u, s2) -> declared_step cfg snap rf n e t s u s2.
Proof.
  unfold next_declared. destruct (t_concept t) as [c|] eqn:C; [|discriminate].
  destruct (lookup_red _ _ _) eqn:L; [discriminate|].
  destruct (concrete_concept_type _ _ _ _) as [[?|]| | |] eqn:T; try discriminate.
  destruct (read_concept _ _ _ _) as [m| | |] eqn:R; try discriminate.
  destruct (smem _ _ _) eqn:SM; [discriminate|].
  destruct (infer_reduction _ _ _ _ _ _ _) as [[[?|] s1]| | |] eqn:I; try discriminate.
  destruct (m_reduction m) as [n'|] eqn:M; [|discriminate].
  destruct (is_leaf_variable_concept _ _ _ _ _) as [[[|] s3]| | |] eqn:V; try discriminate.
  destruct (o_to_ast _ _ _ _) as [[u' s4]| | |] eqn:A; try discriminate. intros E. injection E as -> ->.
  pose proof (leaf_variable_state _ _ _ _ _ _ _ V) as ->.
  eapply DeclaredStep; try eassumption. rewrite SM. exact I.
Qed.
Fixpoint follow (cfg : config) (snap : snapshot) (rf : nat) (e : env) (n : nat) (t : tree) (s : sstate) (links : nat)
  : option tree :=
  match n, links with
  | S n, O => match o_reduce (search cfg snap rf n) e t s with Ok (None, _) => Some t | _ => None end
  | S (S n as n1), S links =>
    match next_declared cfg snap rf n e t s with
    | Some (u, s1) =>
      match insert_reduction e t (Some (u, RExplicit)) s1 with
      | Ok (_, s2) => follow cfg snap rf e n1 u s2 links
      | _ => None
      end
    | None => None
    end
  | _, _ => None
  end.
Lemma follow_ok cfg snap rf e : forall n t s links w,
  follow cfg snap rf e n t s links = Some w -> declared_chain cfg snap rf e n t s w.
Proof.
  induction n as [|[|n] IH]; intros t s [|links] w E; try discriminate; cbn [follow] in E.
  - destruct (o_reduce _ _ _ _) as [[[?|] s']| | |] eqn:R; try discriminate. injection E as <-. econstructor. exact R.
  - destruct (next_declared _ _ _ _ _ _ _) as [[u s1]|] eqn:N; [|discriminate].
    destruct (insert_reduction e t (Some (u, RExplicit)) s1) as [[[] s2]| | |] eqn:I; try discriminate.
    eapply ChainStep; [apply next_declared_ok, N|exact I|]. apply (IH u s2 links w), E.
Qed.
