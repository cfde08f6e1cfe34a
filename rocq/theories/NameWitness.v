(** Sessions that confuse the names of concepts. *)
From Verif Require Import Start Snapshot StoreSpec NameSpec MapFacts AstFacts RangeFacts History Sample Witness.
From Coq Require Import String List Bool Relations.
Import ListNotations.
Local Open Scope string_scope.

(** Deciding whether a concept carries a label (one reduction step suffices here). *)
Definition text_of (s : snapshot) (n : nat) : option text :=
  match lookup s n with
  | Some c => match c_spec c with StringPart t => Some t | _ => None end
  | None => None
  end.
Definition built_in_of (s : snapshot) (n : nat) : option cct :=
  match lookup s n with
  | Some c => match c_spec c with Concrete cc => Some cc | _ => None end
  | None => None
  end.
Definition label_concept : nat := 2.
Definition carries (s : snapshot) (x : nat) (t : text) : bool :=
  match built_in_of s label_concept with Some CLabel => true | _ => false end &&
  existsb (fun comp =>
    match composition_of s comp, reduction_of s comp with
    | Some (l, r), Some str =>
      Nat.eqb l label_concept && Nat.eqb r x &&
      match text_of s str with Some u => text_eqb u t | None => false end
    | _, _ => false
    end) (seq 0 (size s)).
Lemma carries_label_of s x t : carries s x t = true -> carries_label s x t.
Proof.
  unfold carries. intros E. apply andb_prop in E. destruct E as [E1 E2].
  apply existsb_exists in E2. destruct E2 as (comp & _ & E2).
  destruct (composition_of s comp) as [[l r]|] eqn:C; [|discriminate].
  destruct (reduction_of s comp) as [str|] eqn:R; [|discriminate].
  apply andb_prop in E2. destruct E2 as [E2 E3]. apply andb_prop in E2. destruct E2 as [E4 E5].
  apply PeanoNat.Nat.eqb_eq in E4, E5. subst l r.
  exists label_concept, comp, str. split; [|split; [|split]].
  - unfold built_in_of in E1. unfold built_in. destruct (lookup s label_concept) as [c|]; [|discriminate].
    exists c. split; [reflexivity|]. destruct (c_spec c) as [[]| |]; try discriminate E1. reflexivity.
  - apply composition_of_composed. exact C.
  - apply t_step, reduction_of_reduces. exact R.
  - unfold text_of in E3. unfold has_text. destruct (lookup s str) as [c|]; [|discriminate].
    exists c. split; [reflexivity|]. destruct (c_spec c) as [| |u]; try discriminate.
    destruct (text_eqb_spec u t); [|discriminate]. congruence.
Qed.

(** The concept a symbol denotes for the parser. *)
Definition denotes (c : ctx) (s : text) (n : nat) : Prop :=
  concept_from_label cfg0 (c_snap c) (c_delta c) fuel0 s = Ok (Some (Committed n)).
Definition denotes_b (c : ctx) (s : text) (n : nat) : bool :=
  match concept_from_label cfg0 (c_snap c) (c_delta c) fuel0 s with
  | Ok (Some (Committed m)) => Nat.eqb m n
  | _ => false
  end.
Lemma denotes_b_ok c s n : denotes_b c s n = true -> denotes c s n.
Proof.
  unfold denotes_b, denotes. destruct (concept_from_label _ _ _ _ _) as [[[m|]|]| | |]; try discriminate.
  intros E. apply PeanoNat.Nat.eqb_eq in E. congruence.
Qed.
Definition reported_new (c : ctx) (s : text) : bool :=
  match lex (kind_of_symbol cfg0 fuel0 c) s with
  | Ok [l] => match lx_cat l with CatConcept KNew => text_eqb (lx_text l) s | _ => false end
  | _ => false
  end.
Lemma reported_new_ok c s :
  reported_new c s = true -> lex (kind_of_symbol cfg0 fuel0 c) s = Ok [mkLexeme s (CatConcept KNew)].
Proof.
  unfold reported_new. destruct (lex _ s) as [[|[t k] [|]]| | |]; try discriminate. cbn.
  destruct k as [[]| | |]; try discriminate. destruct (text_eqb_spec t s); [|discriminate]. congruence.
Qed.

(** C18, C41: two concepts with one name. *)
Definition shared_name_commands := ["let (a b) -> e"; "let c -> f"; "let (a b) := (c d)"].
Definition all_silent (rs : list text) : bool := forallb (text_eqb []) rs.
Lemma shared_name_checked :
  on_session (run_session cfg0 fuel0 (map txt shared_name_commands) context0) (fun rs c =>
    all_silent rs && carries (c_snap c) 82 (txt "c") && carries (c_snap c) 92 (txt "c") &&
    denotes_b c (txt "c") 82) = true.
Proof. vm_compute. reflexivity. Qed.
Lemma shared_name_before_checked :
  on_session (run_session cfg0 fuel0 (map txt ["let (a b) -> e"; "let c -> f"]) context0) (fun _ c =>
    denotes_b c (txt "c") 92 && carries (c_snap c) 82 (txt "a")) = true.
Proof. vm_compute. reflexivity. Qed.
Lemma shared_name :
  exists c x y, reachable true c /\ x <> y /\
    carries_label (c_snap c) x (txt "c") /\ carries_label (c_snap c) y (txt "c") /\ denotes c (txt "c") x.
Proof.
  destruct (session_witness _ _ shared_name_checked) as (rs & c & _ & R & E).
  apply andb_prop in E. destruct E as [E E3]. apply andb_prop in E. destruct E as [E E2].
  apply andb_prop in E. destruct E as [_ E1].
  exists c, 82, 92. split; [exact R|]. split; [discriminate|].
  split; [apply carries_label_of, E1|]. split; [apply carries_label_of, E2|apply denotes_b_ok, E3].
Qed.
Lemma name_taken_over :
  exists c1 c2 x y rs, reachable true c1 /\ x <> y /\
    run_session cfg0 fuel0 [txt "let (a b) := (c d)"] c1 = Ok (rs, c2) /\ all_silent rs = true /\
    denotes c1 (txt "c") y /\ carries_label (c_snap c1) x (txt "a") /\
    denotes c2 (txt "c") x /\ carries_label (c_snap c2) x (txt "c") /\ carries_label (c_snap c2) y (txt "c").
Proof.
  destruct (session_witness _ _ shared_name_before_checked) as (rs1 & c1 & E1 & R1 & K1).
  destruct (session_witness _ _ shared_name_checked) as (rs2 & c2 & E2 & R2 & K2).
  apply andb_prop in K1. destruct K1 as [K1 K1'].
  apply andb_prop in K2. destruct K2 as [K2 K5]. apply andb_prop in K2. destruct K2 as [K2 K4].
  apply andb_prop in K2. destruct K2 as [K2 K3].
  change (map txt shared_name_commands)
    with (map txt ["let (a b) -> e"; "let c -> f"] ++ [txt "let (a b) := (c d)"])%list in E2.
  assert (A : forall cmds c rest rs c', run_session cfg0 fuel0 (cmds ++ rest)%list c = Ok (rs, c') ->
    forall rs1 c1, run_session cfg0 fuel0 cmds c = Ok (rs1, c1) ->
    exists rs2, run_session cfg0 fuel0 rest c1 = Ok (rs2, c') /\ rs = (rs1 ++ rs2)%list).
  { clear. induction cmds as [|s cmds IH]; intros c rest rs c' E rs1 c1 E1.
    - injection E1 as <- <-. eauto.
    - cbn [run_session app] in E, E1. destruct (execute cfg0 fuel0 s c) as [[r c2]| | |]; try discriminate.
      cbn [obind] in E, E1.
      destruct (run_session cfg0 fuel0 (cmds ++ rest)%list c2) as [[rs' c3]| | |] eqn:Er; try discriminate.
      destruct (run_session cfg0 fuel0 cmds c2) as [[rs1' c4]| | |] eqn:Er1; try discriminate.
      cbn [obind] in E, E1. injection E as <- <-. injection E1 as <- <-.
      destruct (IH _ _ _ _ Er _ _ Er1) as (rs2 & E2 & ->). exists rs2. split; [exact E2|reflexivity]. }
  destruct (A _ _ _ _ _ E2 _ _ E1) as (rs3 & E3 & ->).
  exists c1, c2, 82, 92, rs3. split; [exact R1|]. split; [discriminate|]. split; [exact E3|].
  split.
  { unfold all_silent in K2. rewrite forallb_app in K2. apply andb_prop in K2. apply K2. }
  split; [apply denotes_b_ok, K1|]. split; [apply carries_label_of, K1'|].
  split; [apply denotes_b_ok, K5|]. split; [apply carries_label_of, K3|apply carries_label_of, K4].
Qed.

(** C04: a symbol reported as new although a concept carries it as its label. *)
Lemma hidden_name_checked :
  on_session (run_session cfg0 fuel0 (map txt (shared_name_commands ++ ["let z := c"])%list) context0)
    (fun _ c => carries (c_snap c) 92 (txt "c") && reported_new c (txt "c")) = true.
Proof. vm_compute. reflexivity. Qed.
Lemma hidden_name :
  exists c x, reachable true c /\ carries_label (c_snap c) x (txt "c") /\
    lex (kind_of_symbol cfg0 fuel0 c) (txt "c") = Ok [mkLexeme (txt "c") (CatConcept KNew)].
Proof.
  destruct (session_witness _ _ hidden_name_checked) as (rs & c & _ & R & E).
  apply andb_prop in E. destruct E as [E1 E2]. exists c, 92. split; [exact R|].
  split; [apply carries_label_of, E1|apply reported_new_ok, E2].
Qed.
