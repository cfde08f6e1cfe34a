(** C14, C21: what holds of the lists of reductions and of cycles when reductions are declared
    only for concepts that have none. *)
From Verif Require Import Start Snapshot StoreSpec StoreInv RangeFacts History Keep Links Acyclic Sample Witness.
From Coq Require Import String List Relations.
Import ListNotations.
Local Open Scope string_scope.

(** ** C14.  Full statement: for every [reachable b c].  That is refuted
    ([C14_listed_reductions_refuted]): a reduction can be declared for a concept that already has
    one.  Proved for the histories in which this does not happen. *)
Theorem C14_listed_reductions_are_real_partial :
  forall (b : bool) (c : ctx), reachable_first b c -> listed_reductions_are_real (c_snap c).
Proof. exact (fun b c R => proj2 (reachable_tidy b c R)). Qed.
Print Assumptions C14_listed_reductions_are_real_partial.

(** ** C21.  Full statement: for every [reachable b c]; refuted for the same reason
    ([C21_reductions_form_a_cycle_refuted]). *)
Theorem C21_no_cycle_of_first_reductions_partial :
  forall (b : bool) (c : ctx), reachable_first b c ->
    forall n, ~ clos_trans nat (reduces (c_snap c)) n n.
Proof. exact (fun b c R => proj1 (reachable_tidy b c R)). Qed.
Print Assumptions C21_no_cycle_of_first_reductions_partial.

(** The histories meant are histories; the commands of [Context::new] and a chain of two
    reductions, whose closing into a cycle is rejected, are such a history. *)
Lemma first_histories_are_histories (b : bool) c : reachable_first b c -> reachable b c.
Proof. exact (reachable_first_without b c). Qed.
Definition chain_commands : list text := map txt ["let a -> b"; "let b -> c"; "let c -> a"].
Definition chain_checks (o : option ctx) : bool :=
  match o with
  | Some c =>
    match red_at (c_snap c) 82 with
    | Some n => match red_at (c_snap c) n with
                | Some m => match red_at (c_snap c) m with None => true | _ => false end
                | None => false
                end
    | None => false
    end
  | None => false
  end.
Lemma chain_checked :
  chain_checks (run_first cfg0 fuel0 (map txt setup_commands ++ chain_commands)%list base_context) = true.
Proof. vm_compute. reflexivity. Qed.
Lemma chain_meaning o : chain_checks o = true ->
  exists c, o = Some c /\
    exists n m, reduces (c_snap c) 82 n /\ reduces (c_snap c) n m /\ forall q, ~ reduces (c_snap c) m q.
Proof.
  intros K. unfold chain_checks in K. destruct o as [c|]; [|discriminate K]. exists c. split; [reflexivity|].
  destruct (red_at (c_snap c) 82) as [n|] eqn:E1; [|discriminate K].
  destruct (red_at (c_snap c) n) as [m|] eqn:E2; [|discriminate K].
  destruct (red_at (c_snap c) m) as [|] eqn:E3; [discriminate K|].
  exists n, m. split; [apply reduces_at, E1|]. split; [apply reduces_at, E2|].
  intros q H. apply reduces_at in H. rewrite E3 in H. discriminate H.
Qed.
Example C14_C21_example :
  exists c, reachable_first true c /\
    run_first cfg0 fuel0 (map txt setup_commands ++ chain_commands)%list base_context = Some c /\
    exists n m, reduces (c_snap c) 82 n /\ reduces (c_snap c) n m /\ forall q, ~ reduces (c_snap c) m q.
Proof.
  destruct (chain_meaning _ chain_checked) as (c & E & K). exists c.
  exact (conj (run_first_reachable cfg0 fuel0 _ fair0 _ c (first_base true) E) (conj E K)).
Qed.
