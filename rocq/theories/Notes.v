(** Sessions of declarations, forgetting and questions. *)
From Verif Require Import Lexer LexerSpec Start Snapshot Search Context StoreSpec NameSpec FrameSpec MapFacts AstSpec AstFacts StoreFacts StoreInv RangeFacts
  History Sim SimRead Steps Keep Links Meaning Names OneName Frames StoreLaws Quiet SearchCaches Existence Wide Earned CacheLife Displays Acyclic Matches
  Implications Declare Define Expressions Naming Words Said OwnTrees Follow Settled Spoken WideNames OwnKinds Sample Spelled Uttered Asking Unruled Answers Replies
  Added Told Forgot Keyed Flat Outlines CommandRun Checks Phrases Groups Objections Notebook.
From Coq Require Import List String Relations Permutation PeanoNat Lia.
Import ListNotations.
Local Open Scope zia_scope.

(** ** Specification *)
(** What a line of the session is for, and how it is written. *)
Inductive note := Tell (w v : text) | Forget (w : text) | Ask (w : text) | Check (w v : text) | Phrase (ws : list text) | Group (p : phrase)
| PlainCheck (w v : text) | PlainPhrase (ws : list text) | Doubt (plain : bool) (w v : text) | Outline (os : list outline)
| Object (w v : text) | Idle (w : text) | Accept (w v : text) | Drop (short : bool) (w : text) | NameOf (w : text).
Definition line (n : note) : text :=
  match n with
  | Tell w v => spelled (Both (Word (txt "let")) (Both (Word w) (Both (Word (txt "->")) (Word v))))
  | Forget w => spelled (Both (Word (txt "forget")) (Word w))
  | Ask w => w
  | Check w v => spelled (Both (Word w) (Both (Word (txt "->")) (Word v)))
  | Phrase ws => spelled (row ws)
  | Group p => spelled p
  | PlainCheck w v => joined [w; txt "->"; v]
  | PlainPhrase ws => joined ws
  | Doubt pl w v => if pl then joined [w; txt "->"; v] else spelled (Both (Word w) (Both (Word (txt "->")) (Word v)))
  | Outline os => outlined os
  | Object w v => spelled (Both (Word (txt "let")) (Both (Word w) (Both (Word (txt "->")) (Word v))))
  | Idle w => spelled (Both (Word (txt "forget")) (Word w))
  | Accept w v => spelled (Both (Word (txt "let")) (Both (Word w) (Both (Word (txt "->")) (Word v))))
  | Drop short w => if short then spelled (Both (Word (txt "forget")) (Word w)) else spelled (Both (Word (txt "let")) (Both (Word w) (Both (Word (txt "->")) (Word w))))
  | NameOf w => spelled (Both (Word (txt "label_of")) (Word w))
  end.
(** Declarations are answered with nothing, and so is forgetting them. *)
Definition silent (n : note) (a : text) : Prop := match n with Tell _ _ | Forget _ => a = [] | _ => True end.
(** Sequences and other expressions made of words, and declarations about known words. *)
Definition expression (n : note) : Prop := match n with Phrase _ | Group _ | PlainPhrase _ | Outline _ | Object _ _ | Accept _ _ | Drop false _ => True | _ => False end.
(** Questions about two words, declarations about known words, and asking for names; the questions that have no answer; what is written without brackets. *)
Definition questioning (n : note) : Prop := match n with Check _ _ | PlainCheck _ _ | Doubt _ _ _ | Object _ _ | Accept _ _ | Drop false _ | NameOf _ => True | _ => False end.
Definition doubtful (n : note) : Prop := match n with Doubt _ _ _ => True | _ => False end.
Definition plain (n : note) : Prop := match n with PlainCheck _ _ | PlainPhrase _ | Doubt true _ _ | Outline _ => True | _ => False end.
(** There are no expressions but sequences. *)
Definition tidy (ns : list note) : bool := forallb (fun n => match n with Group _ | Outline _ => false | _ => true end) ns.
(** What was declared of other words than [w]. *)
Definition without (w : text) (B : list (text * text)) : list (text * text) :=
  filter (fun p => if list_eq_dec BinNat.N.eq_dec (fst p) w then false else true) B.
(** The chain of pairs from the word [w] ends with [z] after [n] steps. *)
Inductive away (B : list (text * text)) : nat -> text -> text -> Prop :=
| AwayHere w : (forall v, ~ In (w, v) B) -> away B 0 w w
| AwayOn n w v z : In (w, v) B -> away B n v z -> away B (S n) w z.
(** Along the chain of what was declared, in one step or more. *)
Inductive passes (B : list (text * text)) : text -> text -> Prop :=
| PassesNext w v : In (w, v) B -> passes B w v
| PassesOn w u v : In (w, u) B -> passes B u v -> passes B w v.
(** Neither the word nor another one of its chain is a word of the language. *)
Definition common (B : list (text * text)) (w : text) : Prop := forall z, w = z \/ passes B w z -> ~ In z reserved.
(** The word is among those written so far, or the store [s] does not know it. *)
Definition usable (s : snapshot) (W : list text) (w : text) : Prop :=
  word w /\ ~ underscored w /\ (In w W \/ forall n, ~ found_under s w n).
(** Why the declaration that [w] reduces to [v] is refused, in the words of the answer. *)
Inductive objection (B : list (text * text)) : text -> text -> text -> Prop :=
| ObjectionKept w v u : In (w, u) B -> w <> v -> objection B w v (w ++ txt " already reduces to " ++ u)
| ObjectionLoop w v : (forall u, ~ In (w, u) B) -> leads_to B v w -> w <> v -> objection B w v (txt "Cannot allow a chain of reduction rules to loop.")
| ObjectionSame w : (forall u, ~ In (w, u) B) -> objection B w w (txt "That reduction rule for " ++ w ++ txt " already exists.").
(** How the session is written: [W] are the words written so far, [B] what was declared and not forgotten.
    For each word at most one thing is declared at a time, and questions are about words that were written.  It is
    asked whether one word reduces to another if their chains end with the same word, and this is not one that
    makes a command of what follows it, or with different words that are not words of the language.  Expressions made of words are only evaluated if there is no word of the language
    in their chains.  Brackets are only left out in questions about words that are not words of the language.
    Declarations and forgetting that are refused are about words that were written.  Nothing needs to be known
    of the answers to declarations about such words, nor of those to forgetting what was declared (see below).  This can be
    forgotten in two ways, with `forget` or by declaring that the word reduces to itself.  It may be asked for the names of
    all words that were written. *)
Inductive written (s : snapshot) : list text -> list (text * text) -> list note -> Prop :=
| WrittenEnd W B : written s W B []
| WrittenTell W B w v ns : usable s W w -> usable s W v -> (forall u, ~ In (w, u) B) ->
    written s (w :: v :: W) ((w, v) :: B) ns -> written s W B (Tell w v :: ns)
| WrittenForget W B w ns : In w W -> written s W (without w B) ns -> written s W B (Forget w :: ns)
| WrittenAsk W B w ns : In w W -> written s W B ns -> written s W B (Ask w :: ns)
| WrittenCheck W B w v z ns : In w W -> In v W -> leads_to B w z -> leads_to B v z -> ~ In z [txt "let"; txt "forget"; txt "label_of"] -> written s W B ns -> written s W B (Check w v :: ns)
| WrittenPhrase W B ws ns : le 2 (List.length ws) -> Forall (fun w => In w W /\ common B w) ws -> written s W B ns ->
    written s W B (Phrase ws :: ns)
| WrittenGroup W B p ns : compound p -> Forall (fun w => In w W /\ common B w) (words_of p) -> written s W B ns ->
    written s W B (Group p :: ns)
| WrittenPlainCheck W B w v z ns : In w W -> In v W -> leads_to B w z -> leads_to B v z -> ~ In z [txt "let"; txt "forget"; txt "label_of"] ->
    ~ In w reserved -> ~ In v reserved -> written s W B ns -> written s W B (PlainCheck w v :: ns)
| WrittenPlainPhrase W B ws ns : le 2 (List.length ws) -> Forall (fun w => In w W /\ common B w) ws -> written s W B ns ->
    written s W B (PlainPhrase ws :: ns)
| WrittenDoubt W B pl w v z z' ns : In w W -> In v W -> leads_to B w z -> leads_to B v z' -> z <> z' -> ~ In z reserved -> ~ In z' reserved ->
    (pl = true -> ~ In w reserved /\ ~ In v reserved) -> written s W B ns -> written s W B (Doubt pl w v :: ns)
| WrittenOutline W B os ns : sized (Several os) -> Forall (fun w => In w W /\ common B w) (all_terms os) -> written s W B ns ->
    written s W B (Outline os :: ns)
| WrittenObject W B w v a ns : In w W -> In v W -> common B w -> objection B w v a -> written s W B ns -> written s W B (Object w v :: ns)
| WrittenIdle W B w ns : In w W -> (forall u, ~ In (w, u) B) -> written s W B ns -> written s W B (Idle w :: ns)
| WrittenAccept W B w v ns : In w W -> In v W -> common B w -> (forall u, ~ In (w, u) B) -> ~ leads_to B v w ->
    written s (w :: v :: W) ((w, v) :: B) ns -> written s W B (Accept w v :: ns)
| WrittenDrop W B short w u ns : In w W -> In (w, u) B -> (short = false -> common B w) -> written s W (without w B) ns -> written s W B (Drop short w :: ns)
| WrittenNameOf W B w ns : In w W -> written s W B ns -> written s W B (NameOf w :: ns).
(** What is said of expressions that have a group of three or more groups and no words. *)
Definition refusal : text := txt "Ambiguity due to lack of precedence or associativity defined for the symbols in that expression.".
(** Questions are answered with the word at the end of the chain of what was declared and not forgotten.  That [w]
    reduces to [v] is said to be true if [w] is further away from the end of the chain than [v].  If they have different
    ends then the answer is the same question about these.  A sequence of words is
    answered with the sequence of the words at the ends of their chains.  With other expressions the words are right,
    but the brackets may be any; in sessions that have such expressions, also those of sequences.  Expressions in which
    some brackets are left out are refused if one of their groups has three parts or more and no word among them.  Declarations about words that
    reduce to something already, or that would close a loop, are refused with the reason, and so is forgetting what was
    not declared.  The name of a word is that word, whatever was declared of it. *)
Inductive replies (td : bool) : list (text * text) -> list note -> list text -> Prop :=
| RepliesEnd B : replies td B [] []
| RepliesTell B w v ns answers : replies td ((w, v) :: B) ns answers -> replies td B (Tell w v :: ns) ([] :: answers)
| RepliesForget B w ns answers : replies td (without w B) ns answers -> replies td B (Forget w :: ns) ([] :: answers)
| RepliesAsk B w z ns answers : leads_to B w z -> replies td B ns answers -> replies td B (Ask w :: ns) (z :: answers)
| RepliesCheck B w v m n z ns answers : away B m w z -> away B n v z -> replies td B ns answers ->
    replies td B (Check w v :: ns) ((if Nat.ltb n m then txt "true" else txt "false") :: answers)
| RepliesPhrase B ws vs a ns answers : Forall2 (leads_to B) ws vs -> (if td then a else bare a) = joined vs -> replies td B ns answers ->
    replies td B (Phrase ws :: ns) (a :: answers)
| RepliesGroup B p vs a ns answers : Forall2 (leads_to B) (words_of p) vs -> bare a = joined vs -> replies td B ns answers ->
    replies td B (Group p :: ns) (a :: answers)
| RepliesPlainCheck B w v m n z ns answers : away B m w z -> away B n v z -> replies td B ns answers ->
    replies td B (PlainCheck w v :: ns) ((if Nat.ltb n m then txt "true" else txt "false") :: answers)
| RepliesPlainPhrase B ws vs a ns answers : Forall2 (leads_to B) ws vs -> (if td then a else bare a) = joined vs -> replies td B ns answers ->
    replies td B (PlainPhrase ws :: ns) (a :: answers)
| RepliesDoubt B pl w v z z' ns answers : leads_to B w z -> leads_to B v z' -> replies td B ns answers ->
    replies td B (Doubt pl w v :: ns) (joined [z; txt "->"; z'] :: answers)
| RepliesOutline B os vs a ns answers : unambiguous (Several os) -> Forall2 (leads_to B) (all_terms os) vs -> bare a = joined vs -> replies td B ns answers ->
    replies td B (Outline os :: ns) (a :: answers)
| RepliesRefused B os ns answers : ~ unambiguous (Several os) -> replies td B ns answers ->
    replies td B (Outline os :: ns) (refusal :: answers)
| RepliesObject B w v a ns answers : objection B w v a -> replies td B ns answers -> replies td B (Object w v :: ns) (a :: answers)
| RepliesIdle B w ns answers : replies td B ns answers ->
    replies td B (Idle w :: ns) ((txt "That reduction rule for " ++ w ++ txt " already exists.") :: answers)
| RepliesAccept B w v ns answers : replies td ((w, v) :: B) ns answers -> replies td B (Accept w v :: ns) ([] :: answers)
| RepliesDrop B short w ns answers : replies td (without w B) ns answers -> replies td B (Drop short w :: ns) ([] :: answers)
| RepliesNameOf B w ns answers : replies td B ns answers -> replies td B (NameOf w :: ns) (quoted w :: answers).
(** What is declared after the session, if [B] was declared before. *)
Fixpoint declared (B : list (text * text)) (ns : list note) : list (text * text) :=
  match ns with
  | [] => B
  | Tell w v :: ns | Accept w v :: ns => declared ((w, v) :: B) ns
  | Forget w :: ns | Drop _ w :: ns => declared (without w B) ns
  | Ask _ :: ns | Check _ _ :: ns | Phrase _ :: ns | Group _ :: ns | PlainCheck _ _ :: ns | PlainPhrase _ :: ns | Doubt _ _ _ :: ns | Outline _ :: ns | Object _ _ :: ns | Idle _ :: ns | NameOf _ :: ns => declared B ns
  end.
(** The words that are known after the session, if [W] were known before. *)
Fixpoint words_known (W : list text) (ns : list note) : list text :=
  match ns with
  | [] => W
  | Tell w v :: ns | Accept w v :: ns => words_known (w :: v :: W) ns
  | _ :: ns => words_known W ns
  end.
(** No chain goes on for ever. *)
Definition ending (W : list text) (B : list (text * text)) : Prop := forall w, In w W -> exists z, leads_to B w z.

(** ** Chains of words *)
Lemma leads_away B w z : leads_to B w z -> exists n, away B n w z.
Proof. induction 1 as [w N|w v z J _ (n & IH)]; [exists 0; apply AwayHere, N|exists (S n); exact (AwayOn B n w v z J IH)]. Qed.
Lemma away_leads B n w z : away B n w z -> leads_to B w z.
Proof. induction 1 as [w N|n w v z J _ IH]; [apply LeadsHere, N|exact (LeadsOn B w v z J IH)]. Qed.
Definition single (B : list (text * text)) : Prop := forall w u v, In (w, u) B -> In (w, v) B -> u = v.
Lemma leads_to_one B w y z : single B -> leads_to B w y -> leads_to B w z -> y = z.
Proof.
  intros S H. revert z. induction H as [w N|w v y J _ IH]; intros z K; inversion K as [u N'|u v' z' J' K']; subst.
  - reflexivity.
  - destruct (N _ J').
  - destruct (N' _ J).
  - apply IH. rewrite (S _ _ _ J J'). exact K'.
Qed.
Lemma away_one B n m w y z : single B -> away B n w y -> away B m w z -> n = m /\ y = z.
Proof.
  intros S H. revert m z. induction H as [w N|n w v y J _ IH]; intros m z K; inversion K as [u N'|m' u v' z' J' K']; subst.
  - auto.
  - destruct (N _ J').
  - destruct (N' _ J).
  - destruct (IH m' z) as [-> ->]; [rewrite (S _ _ _ J J'); exact K'|auto].
Qed.
(** What is said at once about whether [w] reduces to [v]. *)
Inductive at_once (B : list (text * text)) : text -> text -> bool -> Prop :=
| AtOnceYes w v : passes B w v -> w <> v -> at_once B w v true
| AtOnceSame w : at_once B w w false
| AtOnceBack w v : passes B v w -> ~ passes B w v -> at_once B w v false.
Definition follows (B : list (text * text)) (w w' : text) : Prop := In (w, w') B \/ w' = w /\ forall u, ~ In (w, u) B.
(** What is said in the end: if nothing is said at once, both words are replaced by what they were declared to
    reduce to, and the same is asked of these. *)
Inductive verdict (B : list (text * text)) : text -> text -> bool -> Prop :=
| VerdictNow w v y : at_once B w v y -> verdict B w v y
| VerdictLater w v w' v' y : (forall x, ~ at_once B w v x) -> follows B w w' -> follows B v v' -> In (w, w') B \/ In (v, v') B ->
    verdict B w' v' y -> verdict B w v y.
(** The two words are on one chain, or both chains are followed until one arrives at where the other one goes. *)
Section Distance.
  Variable B : list (text * text).
  Hypothesis SG : single B.
  Lemma passes_away w v : passes B w v -> forall n m z, away B n w z -> away B m v z -> lt m n.
  Proof.
    induction 1 as [w v J|w u v J _ IH]; intros n m z A Am; inversion A as [x N|n' x y t J' A']; subst; try (destruct (N _ J)); pose proof (SG _ _ _ J J') as <-.
    - destruct (away_one _ _ _ _ _ _ SG A' Am) as [-> _]. lia.
    - specialize (IH _ _ _ A' Am). lia.
  Qed.
  Lemma passes_dec n w z v : away B n w z -> passes B w v \/ ~ passes B w v.
  Proof.
    induction 1 as [w N|n w u z J _ IH].
    - right. intros P. inversion P as [x y J|x u y J _]; subst; exact (N _ J).
    - destruct (list_eq_dec BinNat.N.eq_dec u v) as [<-|NE]; [left; apply PassesNext, J|].
      destruct IH as [P|P]; [left; exact (PassesOn B w u v J P)|]. right. intros P'.
      inversion P' as [x y J'|x q y J' P'']; subst; pose proof (SG _ _ _ J J') as <-; [apply NE; reflexivity|exact (P P'')].
  Qed.
  Lemma away_passes n w z : away B n w z -> n <> 0 -> passes B w z.
  Proof.
    induction 1 as [w N|n w u z J A IH]; intros NZ; [destruct (NZ eq_refl)|].
    inversion A as [x N|n' x y t J' A']; subst; [apply PassesNext, J|]. exact (PassesOn B w u z J (IH (Nat.neq_succ_0 _))).
  Qed.
  Lemma away_verdict m : forall n w v z, away B m w z -> away B n v z -> verdict B w v (Nat.ltb n m).
  Proof.
    induction m as [|m IH]; intros n w v z Aw Av.
    - inversion Aw as [x N|]; subst. apply VerdictNow. destruct n as [|n].
      + inversion Av; subst. apply AtOnceSame.
      + apply AtOnceBack; [exact (away_passes _ _ _ Av (Nat.neq_succ_0 _))|]. intros P. inversion P as [x y J|x u y J _]; subst; exact (N _ J).
    - destruct n as [|n].
      + inversion Av as [x N|]; subst. apply VerdictNow, AtOnceYes; [exact (away_passes _ _ _ Aw (Nat.neq_succ_0 _))|].
        intros ->. inversion Aw as [|n' x y t J' A']; subst. exact (N _ J').
      + destruct (list_eq_dec BinNat.N.eq_dec w v) as [->|NE].
        { destruct (away_one _ _ _ _ _ _ SG Aw Av) as [-> _]. rewrite Nat.ltb_irrefl. apply VerdictNow, AtOnceSame. }
        destruct (passes_dec _ _ _ v Aw) as [P|P].
        { pose proof (passes_away _ _ P _ _ _ Aw Av) as L. apply Nat.ltb_lt in L. rewrite L. apply VerdictNow, AtOnceYes; assumption. }
        destruct (passes_dec _ _ _ w Av) as [P'|P'].
        { pose proof (passes_away _ _ P' _ _ _ Av Aw) as L. rewrite (proj2 (Nat.ltb_ge _ _)) by lia. apply VerdictNow, AtOnceBack; assumption. }
        inversion Aw as [|m' x w' t Jw Aw']; subst. inversion Av as [|n' x v' t Jv Av']; subst.
        apply (VerdictLater B w v w' v'); [|left; exact Jw|left; exact Jv|left; exact Jw|exact (IH _ _ _ _ Aw' Av')].
        intros x H. inversion H; subst; tauto.
  Qed.
End Distance.
Section Chain.
  Variables (B : list (text * text)) (w v z : text).
  Hypothesis Nw : forall u, ~ In (w, u) B.
  Lemma leads_past u t : leads_to B u t -> t <> w -> leads_to ((w, v) :: B) u t.
  Proof.
    induction 1 as [u N|u q t J _ IH]; intros NE.
    - apply LeadsHere. intros q [[= E _]|J]; [congruence|exact (N _ J)].
    - exact (LeadsOn ((w, v) :: B) u q t (or_intror J) (IH NE)).
  Qed.
  Lemma leads_through u t : leads_to B u t -> t = w -> leads_to ((w, v) :: B) v z -> leads_to ((w, v) :: B) u z.
  Proof.
    induction 1 as [u N|u q t J _ IH]; intros -> L.
    - exact (LeadsOn ((w, v) :: B) w v z (or_introl eq_refl) L).
    - exact (LeadsOn ((w, v) :: B) u q z (or_intror J) (IH eq_refl L)).
  Qed.
  Lemma ending_told W : ending W B -> leads_to B v z -> z <> w -> ending (w :: v :: W) ((w, v) :: B).
  Proof.
    intros E L NE. pose proof (leads_past _ _ L NE) as L'. intros u [<-|[<-|J]].
    - exists z. exact (LeadsOn ((w, v) :: B) w v z (or_introl eq_refl) L').
    - exists z. exact L'.
    - destruct (E u J) as (t & T). destruct (list_eq_dec BinNat.N.eq_dec t w) as [->|N].
      + exists z. exact (leads_through _ _ T eq_refl L').
      + exists t. exact (leads_past _ _ T N).
  Qed.
End Chain.
Lemma without_spec w B p : In p (without w B) <-> In p B /\ fst p <> w.
Proof.
  unfold without. split.
  - intros H. apply filter_In in H. destruct H as [J H]. split; [exact J|]. intros E. revert H. match goal with |- context [if ?b then _ else _] => destruct b as [_|N] end; [discriminate|intros _; exact (N E)].
  - intros [J N]. apply filter_In. split; [exact J|]. match goal with |- context [if ?b then _ else _] => destruct b as [E|_] end; [destruct (N E)|reflexivity].
Qed.
Lemma leads_without B w u z : leads_to B u z -> exists t, leads_to (without w B) u t.
Proof.
  induction 1 as [u N|u v z J _ (t & T)].
  - exists u. apply LeadsHere. intros v J. apply without_spec in J. exact (N _ (proj1 J)).
  - destruct (list_eq_dec BinNat.N.eq_dec u w) as [->|N].
    + exists w. apply LeadsHere. intros q J'. apply without_spec in J'. apply (proj2 J'). reflexivity.
    + exists t. apply (LeadsOn (without w B) u v t); [|exact T]. apply without_spec. split; [exact J|exact N].
Qed.
Lemma ending_forgot W B w : ending W B -> ending W (without w B).
Proof. intros E u J. destruct (E u J) as (z & L). exact (leads_without _ _ _ _ L). Qed.
Lemma notebook_path s V B u t : notebook s V B -> leads_to B u t -> forall k, In (u, k) V ->
  exists e, In (t, e) V /\ clos_refl_trans nat (reduces s) k e.
Proof.
  intros NB. induction 1 as [u N|u q t J _ IH]; intros k Jk.
  - exists k. split; [exact Jk|apply rt_refl].
  - destruct (nb_book _ _ _ NB _ _ J) as (k' & l & J1 & J2 & Rd). destruct (nb_symbol _ _ _ NB _ _ J1) as ((_ & _ & Fk & _) & _).
    destruct (nb_symbol _ _ _ NB _ _ Jk) as ((_ & _ & _ & U) & _). pose proof (U _ Fk) as ->. destruct (IH _ J2) as (e & Je & Pe). exists e.
    split; [exact Je|]. eapply rt_trans; [apply rt_step, Rd|exact Pe].
Qed.

(** ** Questions *)
Lemma notebook_settled s V B w k : notebook s V B -> In (w, k) V -> settled_symbol s k w.
Proof.
  intros NB J. destruct (nb_symbol _ _ _ NB _ _ J) as ((_ & NU & _) & C & K & _). split; [|split; [apply GoesByLabel, C|split; [exact (unvaried _ NU)|apply (nb_unruled _ _ _ NB)]]].
  destruct K as [K|K]; [right; exact K|left; exact K].
Qed.
Lemma notebook_plain s V B w k : notebook s V B -> In (w, k) V -> leaf_variable s k Constant -> plain_symbol s k w.
Proof.
  intros NB J K. split; [exact (notebook_settled _ _ _ _ _ NB J)|]. split; [exact K|].
  intros imp p Bi. destruct (nb_symbol _ _ _ NB _ _ J) as (_ & _ & _ & N). apply N. right. exact Bi.
Qed.
Lemma notebook_ends s V B w z : notebook s V B -> leads_to B w z -> forall k, In (w, k) V -> exists e, ends s k e z /\ In (z, e) V.
Proof.
  intros NB. induction 1 as [w N|w v z J _ IH]; intros k Jk.
  - exists k. split; [|exact Jk]. destruct (nb_symbol _ _ _ NB _ _ Jk) as (_ & _ & [K|(cc & K)] & _).
    + apply EndsSymbol; [exact (notebook_plain _ _ _ _ _ NB Jk K)|]. intros q Rd. destruct (nb_only _ _ _ NB _ _ _ Jk Rd) as (v & J & _). exact (N _ J).
    + exact (EndsBuiltIn s k cc w K (notebook_settled _ _ _ _ _ NB Jk)).
  - destruct (nb_book _ _ _ NB _ _ J) as (k' & l & J1 & J2 & Rd). destruct (nb_symbol _ _ _ NB _ _ J1) as ((_ & _ & Fk & _) & _ & K & _).
    destruct (nb_symbol _ _ _ NB _ _ Jk) as ((_ & _ & _ & U) & _). pose proof (U _ Fk) as ->. destruct (IH _ J2) as (e & En & Je). exists e. split; [|exact Je].
    destruct K as [K|(cc & K)].
    + exact (EndsLater s k w l e z (notebook_plain _ _ _ _ _ NB Jk K) Rd En).
    + apply built_spec in K. apply reduces_spec in Rd. destruct Rd as (kk & Rd). congruence.
Qed.

(** ** Whether one symbol reduces to another *)
Section Inquiry.
  Variables (s : snapshot) (V : list (text * nat)) (B : list (text * text)).
  Hypothesis NB : notebook s V B.
  Hypothesis EN : ending (map fst V) B.
  Hypothesis ONE : forall k t u, carries_label s k t -> carries_label s k u -> t = u.
  Hypothesis UB : forall cc a b, built_in s a cc -> built_in s b cc -> a = b.
  Local Notation sym := (fun w k => In (w, k) V).

  Lemma sym_same w k l : In (w, k) V -> In (w, l) V -> k = l.
  Proof.
    intros J1 J2. destruct (nb_symbol _ _ _ NB _ _ J1) as ((_ & _ & H & _) & _). destruct (nb_symbol _ _ _ NB _ _ J2) as ((_ & _ & _ & Q) & _). exact (Q _ H).
  Qed.
  Lemma sym_name w v k : In (w, k) V -> In (v, k) V -> w = v.
  Proof.
    intros J1 J2. destruct (nb_symbol _ _ _ NB _ _ J1) as (_ & C1 & _). destruct (nb_symbol _ _ _ NB _ _ J2) as (_ & C2 & _). exact (ONE _ _ _ C1 C2).
  Qed.
  Lemma book_single : single B.
  Proof.
    intros w u v J1 J2. destruct (nb_book _ _ _ NB _ _ J1) as (k & l & Jk & Jl & R). destruct (nb_book _ _ _ NB _ _ J2) as (k' & l' & Jk' & Jl' & R').
    rewrite (sym_same _ _ _ Jk' Jk) in R'. apply reduces_spec in R, R'. destruct R as (x & R). destruct R' as (x' & R').
    assert (l' = l) as -> by congruence. exact (sym_name _ _ _ Jl Jl').
  Qed.
  Lemma sym_ends w k : In (w, k) V -> exists z v, ends s k z v /\ In (v, z) V.
  Proof.
    intros J. destruct (EN w) as (v & L); [apply in_map_iff; exists (w, k); auto|].
    destruct (notebook_ends _ _ _ _ _ NB L _ J) as (z & H). exists z, v. exact H.
  Qed.
  Lemma sym_reduces w k q : In (w, k) V -> reduces s k q -> exists v, In (v, q) V.
  Proof. intros J R. destruct (nb_only _ _ _ NB _ _ _ J R) as (v & _ & H). exists v. exact H. Qed.
  Lemma sym_apart w a : In (w, a) V -> ~ reaches s a a.
  Proof. intros J R. destruct (sym_ends _ _ J) as (z & v & E & _). exact (ends_acyclic _ _ _ _ E R). Qed.
  Lemma passes_reaches w v : passes B w v -> forall a b, In (w, a) V -> In (v, b) V -> reaches s a b.
  Proof.
    induction 1 as [w v J|w u v J _ IH]; intros a b Ja Jb; destruct (nb_book _ _ _ NB _ _ J) as (k & l & Jk & Jl & R);
      rewrite (sym_same _ _ _ Ja Jk).
    - rewrite (sym_same _ _ _ Jb Jl). apply ReachesNext, R.
    - exact (ReachesOn s k l b R (IH _ _ Jl Jb)).
  Qed.
  Lemma reaches_passes a b : reaches s a b -> forall w v, In (w, a) V -> In (v, b) V -> passes B w v.
  Proof.
    induction 1 as [a b R|a q b R _ IH]; intros w v Ja Jb; destruct (nb_only _ _ _ NB _ _ _ Ja R) as (u & J & Ju).
    - rewrite (sym_name _ _ _ Jb Ju). apply PassesNext, J.
    - exact (PassesOn B w u v J (IH _ _ Ju Jb)).
  Qed.
  Lemma once_settles w v y a b : at_once B w v y -> In (w, a) V -> In (v, b) V -> settles s a b y.
  Proof.
    intros [w' v' P _|w'|w' v' P _] Ja Jb.
    - apply SettlesYes. exact (passes_reaches _ _ P _ _ Ja Jb).
    - rewrite (sym_same _ _ _ Ja Jb). apply SettlesSame.
    - apply SettlesBack. exact (passes_reaches _ _ P _ _ Jb Ja).
  Qed.
  Lemma settles_once w v y a b : settles s a b y -> In (w, a) V -> In (v, b) V -> at_once B w v y.
  Proof.
    intros [a' b' R|a'|a' b' R] Ja Jb.
    - apply AtOnceYes; [exact (reaches_passes _ _ R _ _ Ja Jb)|]. intros ->. rewrite (sym_same _ _ _ Ja Jb) in R. exact (sym_apart _ _ Jb R).
    - rewrite (sym_name _ _ _ Ja Jb). apply AtOnceSame.
    - apply AtOnceBack; [exact (reaches_passes _ _ R _ _ Jb Ja)|]. intros P. pose proof (passes_reaches _ _ P _ _ Ja Jb) as R'.
      exact (sym_apart _ _ Ja (reaches_trans _ _ _ _ R' R)).
  Qed.
  Lemma follows_stepped w w' a : follows B w w' -> In (w, a) V -> exists a', In (w', a') V /\ stepped s a a' /\ (In (w, w') B -> reduces s a a').
  Proof.
    intros H Ja. assert (K : In (w, w') B -> exists a', In (w', a') V /\ reduces s a a').
    { intros J. destruct (nb_book _ _ _ NB _ _ J) as (k & l & Jk & Jl & R). exists l. rewrite (sym_same _ _ _ Ja Jk). auto. }
    destruct H as [J|[-> N]].
    - destruct (K J) as (a' & Ja' & R). exists a'. split; [exact Ja'|]. split; [left; exact R|auto].
    - exists a. split; [exact Ja|]. split; [|intros J; destruct (N _ J)]. right. split; [reflexivity|].
      intros q R. destruct (nb_only _ _ _ NB _ _ _ Ja R) as (u & J & _). exact (N _ J).
  Qed.
  Lemma verdict_decided w v y : verdict B w v y -> forall a b, In (w, a) V -> In (v, b) V -> decided s a b (Says y).
  Proof.
    induction 1 as [w v y H|w v w' v' y U Fw Fv M _ IH]; intros a b Ja Jb.
    - apply DecidedNow. exact (once_settles _ _ _ _ _ H Ja Jb).
    - destruct (follows_stepped _ _ _ Fw Ja) as (a' & Ja' & Sa & Ra). destruct (follows_stepped _ _ _ Fv Jb) as (b' & Jb' & Sb & Rb).
      apply (DecidedLater s a b a' b' (Says y)); [|exact Sa|exact Sb|destruct M; auto|exact (IH _ _ Ja' Jb')].
      intros x H. exact (U x (settles_once _ _ _ _ _ H Ja Jb)).
  Qed.
  (** Words with different ends. *)
  Lemma passes_leads w v z : passes B w v -> leads_to B v z -> leads_to B w z.
  Proof. induction 1 as [w v J|w u v J _ IH]; intros L; [exact (LeadsOn B w v z J L)|exact (LeadsOn B w u z J (IH L))]. Qed.
  Lemma apart_decided z z' : uninvolved s V -> z <> z' -> ~ In z reserved -> ~ In z' reserved -> forall k m n w v a b, le (m + n) k ->
    away B m w z -> away B n v z' -> In (w, a) V -> In (v, b) V ->
    exists e e', In (z, e) V /\ In (z', e') V /\ decided s a b (Stays e e').
  Proof.
    intros Q NE Rz Rz'. pose proof book_single as SG. induction k as [|k IH]; intros m n w v a b Le Aw Av Ja Jb.
    all: assert (U : unsettled s a b).
    1, 3: intros x H; apply (settles_once w v) in H; [|exact Ja|exact Jb]; pose proof (away_leads _ _ _ _ Aw) as Lw; pose proof (away_leads _ _ _ _ Av) as Lv;
      apply NE; destruct H as [w v P _|w|w v P _];
      [exact (leads_to_one _ _ _ _ SG Lw (passes_leads _ _ _ P Lv))|exact (leads_to_one _ _ _ _ SG Lw Lv)|exact (leads_to_one _ _ _ _ SG (passes_leads _ _ _ P Lw) Lv)].
    all: assert (St : forall u j, (forall t, ~ In (u, t) B) -> In (u, j) V -> forall q, ~ reduces s j q)
      by (intros u j Nu Ju q R; destruct (nb_only _ _ _ NB _ _ _ Ju R) as (t & Jt & _); exact (Nu _ Jt)).
    all: assert (Never : (forall t, ~ In (w, t) B) -> (forall t, ~ In (v, t) B) -> w = z -> v = z' ->
      exists e e', In (z, e) V /\ In (z', e') V /\ decided s a b (Stays e e')).
    1, 3: intros Nw Nv -> ->; exists a, b; split; [exact Ja|]; split; [exact Jb|];
      apply DecidedNever; [exact U|exact (St _ _ Nw Ja)|exact (St _ _ Nv Jb)|]; intros o j p Bo Jj M;
      destruct Jj as [<-|[<-|[<-|[]]]];
      [destruct (nb_arrow _ _ _ NB) as (ar & Jr & Br); rewrite (UB _ _ _ Bo Br) in M; exact (Q _ _ _ Jr (or_intror Br) M)
      |exact (Q _ _ _ Ja (or_introl Rz) M)|exact (Q _ _ _ Jb (or_introl Rz') M)].
    - assert (m = 0 /\ n = 0) as [-> ->] by lia. inversion Aw; inversion Av; subst. apply Never; auto.
    - assert (Go : forall w' v' m' n', le (m' + n') k -> follows B w w' -> follows B v v' -> In (w, w') B \/ In (v, v') B -> away B m' w' z -> away B n' v' z' ->
        exists e e', In (z, e) V /\ In (z', e') V /\ decided s a b (Stays e e')).
      { intros w' v' m' n' Le' Fw Fv M Aw' Av'. destruct (follows_stepped _ _ _ Fw Ja) as (a' & Ja' & Sa & Ra). destruct (follows_stepped _ _ _ Fv Jb) as (b' & Jb' & Sb & Rb).
        destruct (IH _ _ _ _ _ _ Le' Aw' Av' Ja' Jb') as (e & e' & Je & Je' & De). exists e, e'. split; [exact Je|]. split; [exact Je'|].
        apply (DecidedLater s a b a' b'); [exact U|exact Sa|exact Sb|destruct M; auto|exact De]. }
      inversion Aw as [x Nw|m' x w' t Jw Aw']; subst; inversion Av as [y Nv|n' y v' t' Jv Av']; subst.
      + apply Never; auto.
      + apply (Go z v' 0 n'); [lia|right; auto|left; exact Jv|auto|exact Aw|exact Av'].
      + apply (Go w' z' m' 0); [lia|left; exact Jw|right; auto|auto|exact Aw'|exact Av].
      + apply (Go w' v' m' n'); [lia|left; exact Jw|left; exact Jv|auto|exact Aw'|exact Av'].
  Qed.
  Lemma built_last w k cc u : In (w, k) V -> built_in s k cc -> ~ In (w, u) B.
  Proof.
    intros J K Ju. destruct (nb_book _ _ _ NB _ _ Ju) as (k' & l & Jk & _ & R). rewrite (sym_same _ _ _ Jk J) in R.
    apply built_spec in K. apply reduces_spec in R. destruct R as (kk & R). congruence.
  Qed.
  Lemma reaches_built a q : reaches s a q -> forall cc w, built_in s q cc -> In (w, a) V -> exists z, In (z, q) V /\ leads_to B w z.
  Proof.
    induction 1 as [a q R|a p q R _ IH]; intros cc w K Ja; destruct (nb_only _ _ _ NB _ _ _ Ja R) as (u & J & Ju).
    - exists u. split; [exact Ju|]. apply (LeadsOn B w u u J). apply LeadsHere. intros x. exact (built_last _ _ _ x Ju K).
    - destruct (IH _ _ K Ju) as (z & Jz & L). exists z. split; [exact Jz|exact (LeadsOn B w u z J L)].
  Qed.
  Lemma peaceful_harmless w a : inquiry s V -> (forall z, leads_to B w z -> ~ In z [txt "let"; txt "forget"; txt "label_of"]) -> In (w, a) V -> harmless s a.
  Proof.
    intros Q P Ja cc q H K.
    assert (Z : exists z, In (z, q) V /\ leads_to B w z).
    { destruct H as [<-|H]; [|exact (reaches_built _ _ H _ _ K Ja)]. exists w. split; [exact Ja|]. apply LeadsHere. intros u. exact (built_last _ _ _ u Ja K). }
    destruct Z as (z & Jz & L). specialize (P z L).
    split; [|split]; intros ->; apply P.
    - destruct (nb_let _ _ _ NB) as (n & J & Kn). rewrite (UB _ _ _ Kn K) in J. rewrite (sym_name _ _ _ Jz J). left. reflexivity.
    - destruct (nb_forget _ _ _ NB) as (n & J & Kn & _). rewrite (UB _ _ _ Kn K) in J. rewrite (sym_name _ _ _ Jz J). right. left. reflexivity.
    - destruct (iq_words _ _ Q (txt "label_of") CLabel) as (n & J & Kn); [cbn; tauto|]. rewrite (UB _ _ _ Kn K) in J. rewrite (sym_name _ _ _ Jz J).
      right. right. left. reflexivity.
  Qed.
  Lemma inquiry_words w cc a : inquiry s V -> In (w, cc) [(txt "assoc", CAssociativity); (txt "true", CTrue); (txt "false", CFalse); (txt "label_of", CLabel)] ->
    built_in s a cc -> In (w, a) V.
  Proof. intros Q J K. destruct (iq_words _ _ Q _ _ J) as (n & Jn & Kn). rewrite (UB _ _ _ K Kn). exact Jn. Qed.
  Lemma inquiry_arrow ar w b : inquiry s V -> built_in s ar CReduction -> In (w, b) V -> Checks.uncomposed s ar b /\ unmatched s ar b.
  Proof.
    intros Q K J. split.
    - intros p C. destruct (nb_symbol _ _ _ NB _ _ J) as (_ & _ & _ & N). exact (N ar p (or_introl K) C).
    - intros p x y C O P. apply (iq_patterns _ _ Q _ _ _ C); [|exact P]. destruct O as [-> | ->]; [left; exact K|right; exists w; exact J].
  Qed.
  Lemma inquiry_assoc ar w a : inquiry s V -> In (w, ar) V -> built_in s a CAssociativity -> Checks.uncomposed s a ar /\ unmatched s a ar.
  Proof.
    intros Q J K. split.
    - intros p C. exact (iq_assoc _ _ Q _ _ _ K C).
    - intros p x y C [-> | ->] P; [destruct (iq_assoc _ _ Q _ _ _ K C)|]. apply (iq_patterns _ _ Q _ _ _ C); [right; exists w; exact J|exact P].
  Qed.

  (** The symbols that sequences are made of. *)
  Definition saying (w : text) (k : nat) : Prop := In (w, k) V /\ forall v l, k = l \/ reaches s k l -> In (v, l) V -> ~ In v reserved.
  Lemma ends_once k z v : ends s k z v -> forall z' v', ends s k z' v' -> z = z'.
  Proof.
    assert (BR : forall i cc q, built_in s i cc -> ~ reduces s i q).
    { intros i cc q K R. apply built_spec in K. apply reduces_spec in R. destruct R as (kk & R). congruence. }
    induction 1 as [z w P N|z cc w K S|k w q z v P R _ IH]; intros z' v' H; inversion H as [a b P' N'|a cc' b K' S'|a b q' c d P' R' H']; subst; try reflexivity.
    - destruct (N _ R').
    - destruct (BR _ _ _ K R').
    - destruct (N' _ R).
    - destruct (BR _ _ _ K' R).
    - apply reduces_spec in R, R'. destruct R as (x & R), R' as (x' & R'). assert (q' = q) as -> by congruence. exact (IH _ _ H').
  Qed.
  Lemma ends_reaches k z v : ends s k z v -> k = z \/ reaches s k z.
  Proof.
    induction 1 as [| |k w q z v P R _ IH]; [left; reflexivity|left; reflexivity|right].
    destruct IH as [->|IH]; [apply ReachesNext, R|exact (ReachesOn s _ _ _ R IH)].
  Qed.
  Lemma saying_ends w k : saying w k -> exists z v, ends s k z v /\ saying v z.
  Proof.
    intros (J & C). destruct (sym_ends _ _ J) as (z & v & E & Jv). exists z, v. split; [exact E|]. split; [exact Jv|].
    intros u l H. apply C. destruct (ends_reaches _ _ _ E) as [->|E']; [exact H|right]. destruct H as [<-|H]; [exact E'|exact (reaches_trans _ _ _ _ E' H)].
  Qed.
  Lemma saying_reduces w k q : saying w k -> reduces s k q -> exists v, saying v q.
  Proof.
    intros (J & C) R. destruct (sym_reduces _ _ _ J R) as (u & Ju). exists u. split; [exact Ju|].
    intros v l H. apply C. right. destruct H as [<-|H]; [apply ReachesNext, R|exact (ReachesOn s _ _ _ R H)].
  Qed.
  Lemma saying_common w k : saying w k -> ~ In w reserved.
  Proof. intros (J & C). exact (C _ _ (or_introl eq_refl) J). Qed.
  Lemma saying_built w k cc : phrasing s V -> saying w k -> built_in s k cc -> cc = CAssociativity.
  Proof. intros Q H K. destruct (ph_names _ _ Q _ _ _ (proj1 H) K) as [E|R]; [exact E|destruct (saying_common _ _ H R)]. Qed.
  Lemma saying_assoc a : phrasing s V -> built_in s a CAssociativity -> saying (txt "assoc") a.
  Proof.
    intros Q K. destruct (ph_assoc _ _ Q) as (n & J & Kn). rewrite <- (UB _ _ _ Kn K). split; [exact J|]. intros v l H Jv. 
    assert (l = n) as ->.
    { destruct H as [<-|H]; [reflexivity|]. apply built_spec in Kn.
      assert (R : exists q, reduces s n q) by (inversion H; eauto). destruct R as (q & R). apply reduces_spec in R. destruct R as (kk & R). congruence. }
    rewrite (sym_name _ _ _ Jv J). intros R. cbn in R. repeat (destruct R as [R|R]; [discriminate|]). exact R.
  Qed.
  Lemma saying_of w k : common B w -> In (w, k) V -> saying w k.
  Proof.
    intros P J. split; [exact J|]. intros v l H Jv. apply P. destruct H as [<-|H]; [left; exact (sym_name _ _ _ J Jv)|right; exact (reaches_passes _ _ H _ _ J Jv)].
  Qed.
  Lemma saying_arrow w k : saying w k -> w <> txt "->".
  Proof. intros H ->. apply (saying_common _ _ H). cbn. tauto. Qed.
  Lemma said_leads w k z v : In (w, k) V -> ends s k z v -> In (v, z) V -> leads_to B w v.
  Proof.
    intros J E Jv. destruct (EN w) as (u & L); [apply in_map_iff; exists (w, k); auto|]. destruct (notebook_ends _ _ _ _ _ NB L _ J) as (e & E' & Je).
    rewrite (ends_once _ _ _ E' _ _ E) in Je. rewrite (sym_name _ _ _ Jv Je). exact L.
  Qed.
  (** Sequences of them are not written like questions. *)
  Lemma apart x : Checks.check_text sym x -> Phrases.words_text saying x -> False.
  Proof.
    intros H (ws & ks & Y & L & X).
    assert (NW : forall w k, saying w k -> w <> txt "->") by (intros w k; exact (saying_arrow _ _)).
    assert (WD : forall w k, In (w, k) V -> word w) by (intros w k J; apply (nb_symbol _ _ _ NB _ _ J)).
    destruct Y as [|w k ws ks Sw Y]; [cbn in L; lia|]. destruct Y as [|v l ws ks Sv Y]; [cbn in L; lia|]. rewrite joined_more in X.
    pose proof (WD _ _ (proj1 Sw)) as Ww. pose proof (WD _ _ (proj1 Sv)) as Wv. pose proof arrow_word as Wa.
    assert (Ws : word (txt "assoc")) by (split; [discriminate|]; intros c J; cbn in J; repeat (destruct J as [<-|J]; [reflexivity|]); destruct J).
    assert (NJ : joined (v :: ws) <> txt "->" /\ (forall y, joined (v :: ws) <> txt "->" ++ c_space :: y) /\ (forall y, joined (v :: ws) <> c_open :: y)).
    { destruct ws as [|u ws]; cbn [joined].
      - split; [exact (NW _ _ Sv)|]. split; [intros y E; exact (word_unspaced _ _ _ Wv E)|]. intros y ->. destruct Wv as [_ Wv]. discriminate (Wv c_open (or_introl eq_refl)).
      - split; [intros E; exact (word_unspaced _ _ _ Wa (eq_sym E))|]. split.
        + intros y E. apply (word_split _ _ _ _ Wv Wa) in E. exact (NW _ _ Sv (proj1 E)).
        + intros y E. destruct Wv as [Nv Wv]. destruct v as [|c v]; [congruence|]. injection E as -> _. discriminate (Wv c_open (or_introl eq_refl)). }
    destruct NJ as (J1 & J2 & J3). destruct H as [H|[(v' & b & Sb & H)|(w' & v' & a & b & Sa & Sb & H)]].
    - rewrite H in X. apply (word_split _ _ _ _ Ws Ww) in X. exact (J1 (eq_sym (proj2 X))).
    - rewrite H in X. apply (word_split _ _ _ _ Wa Ww) in X. exact (NW _ _ Sw (eq_sym (proj1 X))).
    - destruct H as [H|H]; rewrite H in X; apply (word_split _ _ _ _ (WD _ _ Sa) Ww) in X; destruct X as [_ X].
      + exact (J2 _ (eq_sym X)).
      + exact (J3 _ (eq_sym X)).
  Qed.
  Lemma check_bare x : Checks.check_text sym x -> exists us, bare x = joined us /\ Forall word us /\ us <> [] /\ In (txt "->") us.
  Proof.
    assert (WD : forall w k, In (w, k) V -> word w) by (intros w k J; apply (nb_symbol _ _ _ NB _ _ J)). pose proof arrow_word as Wa.
    assert (Ws : word (txt "assoc")) by (split; [discriminate|]; intros c J; cbn in J; repeat (destruct J as [<-|J]; [reflexivity|]); destruct J).
    assert (BS : forall x y, bare (x ++ c_space :: y) = bare x ++ c_space :: bare y) by (intros u y; rewrite bare_app; reflexivity).
    intros [->|[(v & b & Sb & ->)|(w & v & a & b & Sa & Sb & H)]].
    - exists [txt "assoc"; txt "->"]. split; [rewrite BS, !bare_word by assumption; reflexivity|]. split; [repeat (apply Forall_cons; [assumption|]); apply Forall_nil|]. split; [discriminate|cbn; tauto].
    - exists [txt "->"; v]. pose proof (WD _ _ Sb) as Wv. split; [rewrite BS, !bare_word by assumption; reflexivity|]. split; [repeat (apply Forall_cons; [assumption|]); apply Forall_nil|]. split; [discriminate|cbn; tauto].
    - exists [w; txt "->"; v]. pose proof (WD _ _ Sb) as Wv. pose proof (WD _ _ Sa) as Ww. split; [|split; [repeat (apply Forall_cons; [assumption|]); apply Forall_nil|]; split; [discriminate|cbn; tauto]].
      destruct H as [->| ->]; rewrite BS; try rewrite bare_parenthesise; rewrite BS, !bare_word by assumption; reflexivity.
  Qed.
  Lemma apart_groups x : Checks.check_text sym x -> Groups.words_text saying x -> False.
  Proof.
    intros H (ws & Y & L & X). destruct (check_bare _ H) as (us & E & Wu & Nu & J).
    assert (WD : Forall word ws) by (eapply Forall_impl; [|exact Y]; intros w (k & S); apply (nb_symbol _ _ _ NB _ _ (proj1 S))).
    assert (us = ws) as -> by (apply joined_one; [exact Wu|exact WD|exact Nu|destruct ws; cbn in L; [lia|discriminate]|congruence]).
    apply (proj1 (Forall_forall _ _) Y) in J. destruct J as (k & S). exact (saying_arrow _ _ S eq_refl).
  Qed.
End Inquiry.

(** ** Declarations *)
Lemma reduce_apart dbg id s s' x ch y nx ny : self_numbered s -> apply_direct dbg id (DReduce x ch) s = Ok s' -> Delta.after ch = Some y ->
  to_committed s x = Ok nx -> to_committed s y = Ok ny -> nx <> ny.
Proof.
  intros W H A X Y EQ. apply apply_direct_effect in H; [|exact W]. destruct H as (_ & us & E & _). inversion E; subst ch; cbn in A; try discriminate A; injection A as ->.
  all: match goal with H : NoDup _ |- _ => inversion H as [|? ? N _]; cbn in N; apply N end.
  - left. congruence.
  - right. left. congruence.
Qed.

Lemma spec_constant s i : char_at s i = Some Constant -> red_at s i = None -> spec_at s i = Some (Abstract (Leaf Constant) None).
Proof.
  unfold char_at, red_at, spec_at. destruct (lookup s i) as [c|]; [|discriminate]. unfold get_reduction.
  destruct (c_spec c) as [|[|ch] [red|]|]; try discriminate. intros [= ->] _. reflexivity.
Qed.
Lemma spec_unreduced s i k red : spec_at s i = Some (Abstract k red) -> red_at s i = None -> red = None.
Proof.
  unfold red_at, spec_at. destruct (lookup s i) as [c|]; [|discriminate]. unfold get_reduction. intros [= ->]. destruct k; auto.
Qed.
(** The last change, in the words of the store before it. *)
Lemma last_change dbg id s s' x ch y (n : cid -> nat) : self_numbered s -> apply_direct dbg id (DReduce x ch) s = Ok s' -> Delta.after ch = Some y ->
  (forall k, to_committed s x = Ok k -> k = n x) -> (forall k, to_committed s y = Ok k -> k = n y) ->
  (forall q, ~ lists_reduction_from s q (n x)) -> red_at s (n x) = None ->
  exists k, spec_at s (n x) = Some (Abstract k None) /\ spec_at s' (n x) = Some (Abstract k (Some (n y))) /\
    (forall i, i <> n x -> spec_at s' i = spec_at s i) /\ n x <> n y /\
    (forall q p, In p (from_at s' q) <-> In p (from_at s q) \/ q = n y /\ p = n x).
Proof.
  intros W H A CX CY HL RU. destruct (spec_reduce _ _ _ _ W x ch H) as (nx & k & red & TX & SX & SO & M). pose proof (CX _ TX) as ->.
  pose proof (spec_unreduced _ _ _ _ SX RU) as ->. exists k. split; [exact SX|].
  assert (HL' : forall q, ~ In (n x) (from_at s q)) by (intros q J; apply (HL q), from_at_spec, J).
  destruct ch as [y'|b y'|]; [| |discriminate]; injection A as ->.
  - destruct M as (ny & TY & S' & FR). pose proof (CY _ TY) as ->. split; [exact S'|]. split; [exact SO|].
    split; [exact (reduce_apart _ _ _ _ _ _ _ _ _ W H eq_refl TX TY)|]. intros q p. rewrite FR. destruct (Nat.eqb_spec q (n y)) as [->|N]; [|tauto].
    rewrite (sadd_In Nat.eqb Nat.eqb_spec). tauto.
  - destruct M as (nb & ny & _ & TY & S' & FR). pose proof (CY _ TY) as ->. split; [exact S'|]. split; [exact SO|].
    split; [exact (reduce_apart _ _ _ _ _ _ _ _ _ W H eq_refl TX TY)|]. intros q p. rewrite FR. destruct (Nat.eqb_spec q (n y)) as [->|N].
    + rewrite (sadd_In Nat.eqb Nat.eqb_spec). tauto.
    + destruct (Nat.eqb_spec q nb) as [->|N']; [|tauto]. rewrite (sdel_In Nat.eqb Nat.eqb_spec). split; [tauto|]. intros [J|[J _]]; [|tauto].
      split; [|exact J]. intros ->. exact (HL' _ J).
Qed.

Section Notes.
  Variables (cfg : config) (fuel : nat).
  Hypothesis F : fair cfg.
  Hypothesis D : dbg cfg = true.

  Lemma told_next c c' V B w v : reachable_with true (links_safe true) c -> notebook (c_snap c) V B ->
    usable (c_snap c) (map fst V) w -> usable (c_snap c) (map fst V) v -> (forall u, ~ In (w, u) B) ->
    execute cfg fuel (line (Tell w v)) c = Ok ([], c') ->
    reachable_with true (links_safe true) c' /\ c_cache c' = empty_cache /\
    (forall u, (forall n, ~ found_under (c_snap c) u n) -> u <> w -> u <> v -> forall n, ~ found_under (c_snap c') u n) /\
    (forall z, leads_to B v z -> z <> w) /\
    exists x y, notebook (c_snap c') ((w, x) :: (v, y) :: V) ((w, v) :: B) /\
      (inquiry (c_snap c) V -> inquiry (c_snap c') ((w, x) :: (v, y) :: V)) /\
      (phrasing (c_snap c) V -> phrasing (c_snap c') ((w, x) :: (v, y) :: V)) /\
      (unbracketed (c_snap c) V -> unbracketed (c_snap c') ((w, x) :: (v, y) :: V)) /\
      (uninvolved (c_snap c) V -> uninvolved (c_snap c') ((w, x) :: (v, y) :: V)).
  Proof.
    intros RL NB (Ww & Uw & Kw) (Wv & Uv & Kv) Nw E. pose proof (reachable_without _ _ _ RL) as R. pose proof (reachable_ready _ _ R) as RD.
    pose proof (ready_sane c RD) as S. pose proof (ready_prev c RD) as P.
    assert (KN : forall u, In u (map fst V) -> exists k, In (u, k) V).
    { intros u J. apply in_map_iff in J. destruct J as ([u' k] & <- & J). exists k. exact J. }
    assert (Kw' : (exists k, In (w, k) V) \/ forall n, ~ found_under (c_snap c) w n) by (destruct Kw as [K|K]; auto).
    assert (Kv' : (exists k, In (v, k) V) \/ forall n, ~ found_under (c_snap c) v n) by (destruct Kv as [K|K]; auto).
    destruct (nb_let _ _ _ NB) as (nl & Jl & Bl). destruct (nb_arrow _ _ _ NB) as (na & Ja & Ba).
    assert (LBK : forall u k, In (u, k) V -> labels (c_snap c) u).
    { intros u k J n H. destruct (nb_symbol _ _ _ NB _ _ J) as ((_ & _ & _ & Q) & C & K & _). rewrite (Q _ H). split; [|split; [|exact C]].
      - intros l r Cm. apply composed_spec in Cm. destruct Cm as (fv & bv & red & Cm).
        destruct K as [K|(cc & K)]; [apply leaf_spec in K; destruct K as (rd & K)|apply built_spec in K]; congruence.
      - intros Fr. apply leaf_spec in Fr. destruct Fr as (red & Fr).
        destruct K as [K|(cc & K)]; [apply leaf_spec in K; destruct K as (rd & K)|apply built_spec in K]; congruence. }
    assert (LB : forall u, (exists k, In (u, k) V) \/ (forall n, ~ found_under (c_snap c) u n) -> labels (c_snap c) u).
    { intros u [(k & J)|N]; [exact (LBK _ _ J)|intros n H; destruct (N n H)]. }
    assert (NBI : forall u k cc, In (u, k) V -> built_in (c_snap c) k cc -> names_built_in (c_snap c) u cc).
    { intros u k cc J K. exists k. split; [exact K|]. intros m. destruct (nb_symbol _ _ _ NB _ _ J) as ((_ & _ & H & Q) & _). split; [apply Q|intros ->; exact H]. }
    set (p := Both (Word (txt "let")) (Both (Word w) (Both (Word (txt "->")) (Word v)))).
    assert (UJ : unjoined (c_snap c) p).
    { assert (WD : forall u k, In (u, k) V -> word u /\ ~ underscored u /\ labels (c_snap c) u).
      { intros u k J. destruct (nb_symbol _ _ _ NB _ _ J) as ((X1 & X2 & _) & _). split; [exact X1|]. split; [exact X2|exact (LBK _ _ J)]. }
      cbn. split; [exact (WD _ _ Jl)|]. split; [|exact I]. split; [split; [exact Ww|split; [exact Uw|exact (LB _ Kw')]]|]. split; [|exact I].
      split; [exact (WD _ _ Ja)|]. split; [split; [exact Wv|split; [exact Uv|exact (LB _ Kv')]]|].
      destruct (nb_symbol _ _ _ NB _ _ Ja) as ((_ & _ & _ & Qa) & _). split.
      - intros x y z Hx Hy C. rewrite (Qa _ Hx) in C. destruct Kv' as [(k & J)|N]; [|exact (N _ Hy)].
        destruct (nb_symbol _ _ _ NB _ _ J) as ((_ & _ & _ & Q) & _ & _ & NC). rewrite (Q _ Hy) in C. exact (NC na z (or_introl Ba) C).
      - intros x Hx BX. rewrite (Qa _ Hx) in BX. apply built_spec in BX, Ba. congruence. }
    assert (NLI : forall n y, found_under (c_snap c) w n -> ~ lists_reduction_from (c_snap c) y n).
    { intros n y H L. destruct Kw' as [(k & J)|N]; [|exact (N _ H)]. destruct (nb_symbol _ _ _ NB _ _ J) as ((_ & _ & _ & Q) & _). rewrite (Q _ H) in L.
      destruct (nb_only _ _ _ NB _ _ _ J (nb_listed _ _ _ NB _ _ _ J L)) as (u & Ju & _). exact (Nw _ Ju). }
    destruct (reachable_built_in _ c R CLabel) as (lab & BL & _ & UL & _).
    destruct (told_trace cfg fuel F D c RL lab BL (txt "let") (txt "->") w v c' UJ (NBI _ _ _ Jl Bl) (NBI _ _ _ Ja Ba) NLI E)
      as (x1 & x2 & d1 & d2 & s1 & s2 & ch & c2 & AM1 & TL & AM2 & PE & AF & AD & G & F1 & F2 & F12 & F01 & HL & RU & X1 & X2 & RC & DC & CC & LG).
    fold p in TL. set (ws := fun u => In u (words_of p)) in *.
    pose proof (all_added cfg (c_snap c) fuel S P lab ws (ex_intro _ CLabel (proj1 (built_spec _ _ _) BL)) d1 (proj1 AM1) s1 AM1 TL) as HA.
    assert (NM : Forall (fun q => naming (snd q)) (d_order (overlay d1))) by (eapply Forall_impl; [|exact TL]; intros q; apply tells_naming).
    destruct (pending_facts cfg fuel c RL d1 s1 AM1 NM) as (LK & LA & TR1).
    destruct (amounts_linked cfg (c_snap c) fuel S P _ _ AM1) as (LKf & _).
    pose proof (lk_sane _ _ _ _ _ LK) as S1. pose proof (sane_numbers _ S1) as W1. pose proof (lk_prev _ _ _ _ _ LK) as PV.
    assert (RL' : reachable_with true (links_safe true) c').
    { eapply (reach_with_execute true (links_safe true) cfg fuel _ c _ c2 _ c' F D RL RC); [|exact E]. rewrite DC, PE. intros id q J. apply in_app_or in J.
      destruct J as [J|[[= <- <-]|[]]]; [|exact I]. rewrite Forall_forall in NM. exact (naming_safe _ _ (NM _ J)). }
    pose proof (reachable_without _ _ _ RL') as R'.
    split; [exact RL'|]. split.
    { destruct (execute_run cfg fuel _ c [] c' F RD E) as (z & c3 & E1 & _ & _ & _ & _ & _ & _ & _ & CE).
      cbn [line] in E1. rewrite RC in E1. injection E1 as _ <-. congruence. }
    assert (CR : forall j k, below (size (c_snap c)) j -> to_committed s1 j = Ok k -> k = rho (c_snap c) j).
    { intros j k Bj T. apply (com_rho (c_snap c) s1 _ PV j k Bj T). }
    assert (GB : below (size (c_snap c)) x1 /\ below (size (c_snap c)) x2).
    { destruct ch; cbn in G, AF; try discriminate; injection AF as ->; tauto. }
    destruct (last_change _ _ _ _ _ _ _ (rho (c_snap c)) W1 AD AF (fun k => CR x1 k (proj1 GB)) (fun k => CR x2 k (proj2 GB)) HL RU)
      as (kx & HX & HX' & HS & XY & HF).
    pose proof (same_concepts_at _ _ X1) as SC.
    assert (SA : forall i, spec_at (c_snap c') i = spec_at s2 i) by (intros i; unfold spec_at; rewrite SC; reflexivity).
    assert (FA : forall i, from_at (c_snap c') i = from_at s2 i) by (intros i; unfold from_at; rewrite SC; reflexivity).
    assert (HM : forall u, aget text_eqb u (string_map (c_snap c')) = aget text_eqb u (string_map s1)).
    { intros u. rewrite X2. apply apply_direct_effect in AD; [|exact W1]. destruct AD as ((Q & _) & _). rewrite Q. reflexivity. }
    assert (FS : forall u n, found_under s1 u n -> found_under (c_snap c') u n) by (intros u n H; apply (found_same s2); auto).
    assert (HX2 : spec_at (c_snap c') (rho (c_snap c) x1) = Some (Abstract kx (Some (rho (c_snap c) x2)))) by (rewrite SA; exact HX').
    assert (HS2 : forall i, i <> rho (c_snap c) x1 -> spec_at (c_snap c') i = spec_at s1 i) by (intros i N; rewrite SA; exact (HS i N)).
    assert (HF2 : forall q r, In r (from_at (c_snap c') q) <-> In r (from_at s1 q) \/ q = rho (c_snap c) x2 /\ r = rho (c_snap c) x1) by (intros q r; rewrite FA; apply HF).
    assert (HK : forall u n, found_under (c_snap c) u n -> found_under (c_snap c') u n) by auto.
    assert (Ny : le (size (c_snap c)) (rho (c_snap c) x2) -> spec_at s1 (rho (c_snap c) x2) = Some (Abstract (Leaf Constant) None) /\
      (forall q, ~ In (rho (c_snap c) x2) (from_at s1 q)) /\ carries_label s1 (rho (c_snap c) x2) v).
    { intros L. destruct (new_word cfg (c_snap c) fuel S P d1 s1 v _ AM1 NM F2 L) as (Y1 & Y2 & Y3). split; [exact (spec_constant _ _ Y1 Y2)|]. split; [exact Y3|].
      exact (new_label cfg (c_snap c) fuel S P d1 s1 v _ AM1 NM TR1 F2 L). }
    pose proof (reachable_listed _ _ R) as LR. pose proof (reachable_strings _ _ R) as TR. pose proof (reachable_strings _ _ R') as TR'.
    pose proof (older_name cfg (c_snap c) fuel S P d1 s1 w _ AM1 NM F1) as Ox. pose proof (older_name cfg (c_snap c) fuel S P d1 s1 v _ AM1 NM F2) as Oy.
    pose proof (new_label cfg (c_snap c) fuel S P d1 s1 w _ AM1 NM TR1 F1) as Cx.
    assert (ONE : forall k t u, carries_label (c_snap c') k t -> carries_label (c_snap c') k u -> t = u).
    { destruct (links_agree_reachable _ c' RL') as (_ & _ & UC). destruct (reachable_built_in _ c' R' CLabel) as (lab' & _ & _ & UL' & _).
      intros k t u. apply label_one; [exact UC|]. intros a b Ba' Bb. rewrite (UL' a Ba'), (UL' b Bb). reflexivity. }
    assert (NC : ~ clos_refl_trans nat (reduces s1) (rho (c_snap c) x2) (rho (c_snap c) x1)).
    { intros PT. inversion LG as [| | | | | | | |k m r nf rc NF NN RK NR RC' RR EQ|k m l r xx B1 B2 K1 K2 RK CD EX|]; subst.
      - discriminate AF.
      - assert (r = x2) as -> by (destruct nf; cbn in AF; congruence).
        pose proof (normal_form_end _ _ _ _ _ LK _ _ _ NF _ PT RU) as EE. destruct nf as [q|]; [|exact (XY EE)]. destruct EE as [Dq EE].
        apply NN. f_equal. destruct (linked_read _ _ _ _ _ _ _ LK RK) as (Dk & _). eapply rho_inj; [exact Dq|exact Dk|congruence].
      - destruct (compose_delta_shape _ _ _ _ _ CD) as (? & EE). discriminate EE. }
    assert (NBN : notebook (c_snap c') ((w, rho (c_snap c) x1) :: (v, rho (c_snap c) x2) :: V) ((w, v) :: B)).
    { eapply (told_notebook (c_snap c) s1 (c_snap c') lab ws (rho (c_snap c) x1) (rho (c_snap c) x2) kx V B w v); eauto. }
    split; [|split].
    - intros u N Nuw Nuv. destruct (in_dec (list_eq_dec BinNat.N.eq_dec) u (words_of p)) as [J|J].
      + exfalso. cbn in J. destruct J as [<-|[->|[<-|[->|[]]]]]; [|contradiction| |contradiction].
        * destruct (nb_symbol _ _ _ NB _ _ Jl) as ((_ & _ & H & _) & _). exact (N _ H).
        * destruct (nb_symbol _ _ _ NB _ _ Ja) as ((_ & _ & H & _) & _). exact (N _ H).
      + eapply (unknown_stays (c_snap c) s1 (c_snap c') lab ws (rho (c_snap c) x1) (rho (c_snap c) x2) kx V B w v); eassumption.
    - assert (SAME : forall u k l, In (u, k) ((w, rho (c_snap c) x1) :: (v, rho (c_snap c) x2) :: V) -> In (u, l) ((w, rho (c_snap c) x1) :: (v, rho (c_snap c) x2) :: V) -> k = l).
      { intros u k l J1 J2. destruct (nb_symbol _ _ _ NBN _ _ J1) as ((_ & _ & H & _) & _). destruct (nb_symbol _ _ _ NBN _ _ J2) as ((_ & _ & _ & Q) & _). exact (Q _ H). }
      intros z LT ->. destruct Kv' as [(k & J)|N].
      + destruct (notebook_path _ _ _ _ _ NB LT _ J) as (e & Je & Pe).
        pose proof (SAME v k (rho (c_snap c) x2) (or_intror (or_intror J)) (or_intror (or_introl eq_refl))) as ->.
        pose proof (SAME w e (rho (c_snap c) x1) (or_intror (or_intror Je)) (or_introl eq_refl)) as ->.
        apply NC. clear - Pe HA. induction Pe as [a b H| |a b d _ IH1 _ IH2]; [|apply rt_refl|eapply rt_trans; eassumption].
        apply rt_step. apply reduces_spec in H. destruct H as (kk & H). apply reduces_spec. exists kk. rewrite (proj1 HA); [exact H|exact (spec_lt _ _ _ H)].
      + inversion LT as [u NN|u q t J _]; subst.
        * apply XY. exact (SAME w _ _ (or_introl eq_refl) (or_intror (or_introl eq_refl))).
        * destruct (nb_book _ _ _ NB _ _ J) as (k & l & J1 & _). destruct (nb_symbol _ _ _ NB _ _ J1) as ((_ & _ & H & _) & _). exact (N _ H).
    - eexists _, _. split; [exact NBN|]. split; [|split; [|split]]; intros Q.
      + eapply (told_inquiry (c_snap c) s1 (c_snap c') lab ws (rho (c_snap c) x1) (rho (c_snap c) x2) kx V B w v); eauto.
      + eapply (told_phrasing (c_snap c) s1 (c_snap c') lab ws (rho (c_snap c) x1) (rho (c_snap c) x2) kx V B w v); eauto.
      + eapply (told_unbracketed (c_snap c) s1 (c_snap c') lab ws (rho (c_snap c) x1) (rho (c_snap c) x2) kx V B w v); eauto.
      + eapply (told_uninvolved (c_snap c) s1 (c_snap c') lab ws (rho (c_snap c) x1) (rho (c_snap c) x2) kx V B w v); eauto.
  Qed.
  Lemma removed_next tx c c' V B w' k y s2 c2 : reachable_with true (links_safe true) c -> notebook (c_snap c) V B -> In (w', k) V ->
    execute cfg fuel tx c = Ok ([], c') -> run_command cfg fuel tx c = Ok (Val [], c2) ->
    pending c2 = [(Committed k, DReduce (Committed k) (Remove y))] -> red_at (c_snap c) k = Some (rho (c_snap c) y) ->
    (forall n, to_committed (c_snap c) y = Ok n -> n = rho (c_snap c) y) ->
    apply_direct (dbg cfg) (Committed k) (DReduce (Committed k) (Remove y)) (c_snap c) = Ok s2 ->
    concepts (c_snap c') = concepts s2 -> (forall v, aget text_eqb v (string_map (c_snap c')) = aget text_eqb v (string_map s2)) -> c_cache c2 = empty_cache ->
    reachable_with true (links_safe true) c' /\ c_cache c' = empty_cache /\
    (forall u, (forall n, ~ found_under (c_snap c) u n) -> forall n, ~ found_under (c_snap c') u n) /\
    notebook (c_snap c') V (without w' B) /\ (inquiry (c_snap c) V -> inquiry (c_snap c') V) /\ (phrasing (c_snap c) V -> phrasing (c_snap c') V) /\
    (unbracketed (c_snap c) V -> unbracketed (c_snap c') V) /\ (uninvolved (c_snap c) V -> uninvolved (c_snap c') V).
  Proof.
    intros RL NB Jw E RC PE RA CY AD X1 X2 CC. pose proof (reachable_without _ _ _ RL) as R. pose proof (reachable_ready _ _ R) as RD.
    pose proof (ready_sane c RD) as S. pose proof (sane_numbers _ S) as N0.
    assert (RL' : reachable_with true (links_safe true) c').
    { eapply (reach_with_execute true (links_safe true) cfg fuel _ c _ c2 _ c' F D RL RC); [|exact E]. unfold pending in PE. rewrite PE.
      intros id q [[= <- <-]|[]]. exact I. }
    split; [exact RL'|]. split.
    { destruct (execute_run cfg fuel _ c [] c' F RD E) as (z & c3 & E1 & _ & _ & _ & _ & _ & _ & _ & CE).
      rewrite RC in E1. injection E1 as _ <-. congruence. }
    destruct (spec_remove _ _ _ _ _ _ N0 AD) as (nx & ny & kx & red & TX & TY & SX & SX' & SO & FR).
    assert (nx = k) as -> by (cbn in TX; congruence). pose proof (CY _ TY) as ->.
    assert (red = Some (rho (c_snap c) y)) as ->.
    { clear - SX RA. unfold spec_at in SX. unfold red_at in RA. destruct (lookup (c_snap c) k) as [cc|]; [|discriminate].
      injection SX as SX. unfold get_reduction in RA. rewrite SX in RA. destruct kx; exact RA. }
    pose proof (same_concepts_at _ _ X1) as SC.
    assert (HM : forall u, aget text_eqb u (string_map (c_snap c')) = aget text_eqb u (string_map (c_snap c))).
    { intros u. rewrite X2. apply apply_direct_effect in AD; [|exact N0]. destruct AD as ((Q & _) & _). rewrite Q. reflexivity. }
    assert (HX' : spec_at (c_snap c') k = Some (Abstract kx None)) by (unfold spec_at in *; rewrite SC; exact SX').
    assert (HS : forall i, i <> k -> spec_at (c_snap c') i = spec_at (c_snap c) i) by (intros i N; rewrite <- (SO i N); unfold spec_at; rewrite SC; reflexivity).
    assert (HF : forall q p, In p (from_at (c_snap c') q) <-> In p (from_at (c_snap c) q) /\ ~ (q = rho (c_snap c) y /\ p = k)).
    { intros q p. replace (from_at (c_snap c') q) with (from_at s2 q) by (unfold from_at; rewrite SC; reflexivity). rewrite FR.
      destruct (Nat.eqb_spec q (rho (c_snap c) y)) as [->|N]; [|tauto]. rewrite (sdel_In Nat.eqb Nat.eqb_spec). tauto. }
    assert (ONE : forall j t u, carries_label (c_snap c) j t -> carries_label (c_snap c) j u -> t = u).
    { destruct (links_agree_reachable _ c RL) as (_ & _ & UC). destruct (reachable_built_in _ c R CLabel) as (lab & _ & _ & UL & _).
      intros j t u. apply label_one; [exact UC|]. intros a b Ba Bb. rewrite (UL a Ba), (UL b Bb). reflexivity. }
    pose proof (reachable_listed _ _ R) as LR. split; [|split].
    - intros u N n H. apply (N n). eapply (forgot_found_back (c_snap c) (c_snap c') k (rho (c_snap c) y) kx V B w'); eauto.
    - eapply (forgot_notebook (c_snap c) (c_snap c') k (rho (c_snap c) y) kx V B (without w' B) w'); eauto. apply without_spec.
    - split; [|split; [|split]]; intros Q.
      + eapply (forgot_inquiry (c_snap c) (c_snap c') k (rho (c_snap c) y) kx V B w'); eauto.
      + eapply (forgot_phrasing (c_snap c) (c_snap c') k (rho (c_snap c) y) kx V); eauto.
      + eapply (forgot_unbracketed (c_snap c) (c_snap c') k (rho (c_snap c) y) kx V); eauto.
      + eapply (forgot_uninvolved (c_snap c) (c_snap c') k (rho (c_snap c) y) kx V); eauto.
  Qed.
  Lemma forgot_next c c' V B w : reachable_with true (links_safe true) c -> notebook (c_snap c) V B -> In w (map fst V) ->
    execute cfg fuel (line (Forget w)) c = Ok ([], c') ->
    reachable_with true (links_safe true) c' /\ c_cache c' = empty_cache /\
    (forall u, (forall n, ~ found_under (c_snap c) u n) -> forall n, ~ found_under (c_snap c') u n) /\
    notebook (c_snap c') V (without w B) /\ (inquiry (c_snap c) V -> inquiry (c_snap c') V) /\ (phrasing (c_snap c) V -> phrasing (c_snap c') V) /\
    (unbracketed (c_snap c) V -> unbracketed (c_snap c') V) /\ (uninvolved (c_snap c) V -> uninvolved (c_snap c') V).
  Proof.
    intros RL NB Jw E. pose proof (reachable_without _ _ _ RL) as R. pose proof (reachable_ready _ _ R) as RD.
    pose proof (ready_sane c RD) as S. pose proof (sane_numbers _ S) as N0.
    apply in_map_iff in Jw. destruct Jw as ([w' k] & <- & Jw). cbn [fst] in *.
    destruct (nb_forget _ _ _ NB) as (nf & Jf & Bf & NCf).
    assert (NBI : names_built_in (c_snap c) (txt "forget") CForget).
    { exists nf. split; [exact Bf|]. intros m. destruct (nb_symbol _ _ _ NB _ _ Jf) as ((_ & _ & H & Q) & _). split; [apply Q|intros ->; exact H]. }
    destruct (nb_symbol _ _ _ NB _ _ Jf) as (Mf & _). destruct (nb_symbol _ _ _ NB _ _ Jw) as (Mw & _).
    assert (LBK : forall u j, In (u, j) V -> labels (c_snap c) u).
    { intros u j J n H. destruct (nb_symbol _ _ _ NB _ _ J) as ((_ & _ & _ & Q) & C & K & _). rewrite (Q _ H). split; [|split; [|exact C]].
      - intros l r Cm. apply composed_spec in Cm. destruct Cm as (fv & bv & red & Cm).
        destruct K as [K|(cc & K)]; [apply leaf_spec in K; destruct K as (rd & K)|apply built_spec in K]; congruence.
      - intros Fr. apply leaf_spec in Fr. destruct Fr as (red & Fr).
        destruct K as [K|(cc & K)]; [apply leaf_spec in K; destruct K as (rd & K)|apply built_spec in K]; congruence. }
    assert (UJ : unjoined (c_snap c) (Both (Word (txt "forget")) (Word w'))).
    { cbn. split; [split; [apply Mf|split; [apply Mf|exact (LBK _ _ Jf)]]|]. split; [split; [apply Mw|split; [apply Mw|exact (LBK _ _ Jw)]]|].
      destruct Mf as (_ & _ & _ & Qf). split.
      - intros x y z Hx _ C. rewrite (Qf _ Hx) in C. exact (NCf _ _ C).
      - intros x Hx BX. rewrite (Qf _ Hx) in BX. apply built_spec in BX, Bf. congruence. }
    destruct Mw as (_ & _ & Fw & Qw).
    destruct (forgot_trace cfg fuel F D c RL (txt "forget") w' c' UJ NBI (ex_intro _ k Fw) E)
      as (x & y & s2 & c2 & F1 & RA & CY & AD & X1 & X2 & RC & PE & CC). rewrite (Qw _ F1) in *. clear x F1.
    exact (removed_next _ c c' V B w' k y s2 c2 RL NB Jw E RC PE RA CY AD X1 X2 CC).
  Qed.
  Lemma asked_next extra c c' V B w z a : reachable_with true (links_safe true) c -> notebook (c_snap c) V B -> asked cfg (c_snap c) fuel extra c ->
    In w (map fst V) -> leads_to B w z -> execute cfg fuel w c = Ok (a, c') ->
    a = z /\ c_snap c' = c_snap c /\ reachable_with true (links_safe true) c' /\ asked cfg (c_snap c) fuel extra c'.
  Proof.
    intros R NB H J LT E. pose proof (reachable_without _ _ _ R) as R0. pose proof (reachable_ready _ _ R0) as RD.
    apply in_map_iff in J. destruct J as ([w' k] & <- & J). cbn in LT, E |- *. destruct (notebook_ends _ _ _ _ _ NB LT _ J) as (e & En & _).
    pose proof (sane_numbers _ (ready_sane _ RD)) as N.
    destruct (links_agree_reachable true c R) as (LC & LR & UC).
    destruct (reachable_built_in true c R0 CLabel) as (lab & BL & _ & UL & _ & _ & CI).
    assert (UL' : forall x y, built_in (c_snap c) x CLabel -> built_in (c_snap c) y CLabel -> x = y).
    { intros y y' Y Z. rewrite (UL y Y), (UL y' Z). reflexivity. }
    assert (BI : forall cc y, concrete_concept_id cfg (c_snap c) delta_default cc = Ok (Some y) -> is_built_in (c_snap c) y cc).
    { intros cc y X. destruct (reachable_built_in true c R0 cc) as (n & B' & _ & _ & _ & _ & CI').
      rewrite (concrete_id_plain _ _ _ F) in X. rewrite (concrete_id_plain _ _ _ fair0) in CI'.
      rewrite X in CI'. injection CI' as ->. exists n. auto. }
    rewrite (concrete_id_plain cfg0 _ _ fair0) in CI. rewrite <- (concrete_id_plain cfg _ _ F) in CI.
    pose proof (nb_operators _ _ _ NB) as ON. pose proof (proj1 (nb_symbol _ _ _ NB _ _ J)) as Me.
    destruct (symbol_executed cfg (c_snap c) fuel F N LC LR UL' lab CI BL BI ON extra _ _ _ _ _ _ _ RD En Me H E) as (-> & S1 & D1 & G1).
    destruct (execute_run cfg fuel _ c z c' F RD E) as (y & c1 & E1 & _).
    destruct (symbol_run cfg (c_snap c) fuel F N LC LR UL' lab CI BL BI ON extra _ _ _ _ _ _ _ En Me H E1) as ((_ & D2 & _) & _).
    assert (R' : reachable_with true (links_safe true) c').
    { eapply (reach_with_execute true (links_safe true) cfg fuel _ c _ c1 _ c' F D R E1); [|exact E]. rewrite D2. intros id x []. }
    split; [reflexivity|]. split; [exact S1|]. split; [exact R'|]. split; [exact S1|]. split; [exact D1|].
    split; [apply (reachable_ready true c' (reachable_without _ _ _ R'))|exact G1].
  Qed.
  (** What the memory holds during a session: besides what is known of words, what was decided about them. *)
  Definition memory (td : bool) (c : ctx) (V : list (text * nat)) (ar : nat) (x : text) (r : rresult) : Prop :=
    Checks.right_check cfg (c_snap c) fuel (fun w k => In (w, k) V) ar x r /\
    if td then Phrases.right_words (c_snap c) (saying (c_snap c) V) x r else Groups.right_words (c_snap c) (saying (c_snap c) V) x r.
  Lemma memory_checks td c V B ar x r : notebook (c_snap c) V B ->
    Checks.check_text (fun w k => In (w, k) V) x -> Checks.right_check cfg (c_snap c) fuel (fun w k => In (w, k) V) ar x r -> memory td c V ar x r.
  Proof.
    intros NB T H. split; [exact H|]. destruct td.
    - intros ws ks Y L X. destruct (apart _ _ _ NB _ T). exists ws, ks. auto.
    - intros ws Y L X. destruct (apart_groups _ _ _ NB _ T). exists ws. auto.
  Qed.
  Lemma check_free c V ar x r : (Checks.check_text (fun w k => In (w, k) V) x -> False) ->
    Checks.right_check cfg (c_snap c) fuel (fun w k => In (w, k) V) ar x r.
  Proof.
    intros H. split; [|split].
    - intros X. destruct H. left. exact X.
    - intros v b Sv X. destruct H. right. left. exists v, b. auto.
    - intros w v a b y Sw Sv X _. destruct H. right. right. exists w, v, a, b. auto.
  Qed.
  Lemma memory_words c V B ar x r : notebook (c_snap c) V B ->
    Phrases.words_text (saying (c_snap c) V) x -> Phrases.right_words (c_snap c) (saying (c_snap c) V) x r -> memory true c V ar x r.
  Proof. intros NB T H. split; [|exact H]. apply check_free. intros C. exact (apart _ _ _ NB x C T). Qed.
  Lemma memory_groups c V B ar x r : notebook (c_snap c) V B ->
    Groups.words_text (saying (c_snap c) V) x -> Groups.right_words (c_snap c) (saying (c_snap c) V) x r -> memory false c V ar x r.
  Proof. intros NB T H. split; [|exact H]. apply check_free. intros C. exact (apart_groups _ _ _ NB x C T). Qed.
  Lemma store_facts c : reachable_with true (links_safe true) c ->
    (forall cc x y, built_in (c_snap c) x cc -> built_in (c_snap c) y cc -> x = y) /\
    (forall j t u, carries_label (c_snap c) j t -> carries_label (c_snap c) j u -> t = u).
  Proof.
    intros R. pose proof (reachable_without _ _ _ R) as R0. destruct (links_agree_reachable true c R) as (_ & _ & UC).
    assert (UB : forall cc x y, built_in (c_snap c) x cc -> built_in (c_snap c) y cc -> x = y).
    { intros cc y1 y2 Y Z. destruct (reachable_built_in true c R0 cc) as (n0 & _ & _ & U & _). rewrite (U y1 Y), (U y2 Z). reflexivity. }
    split; [exact UB|]. intros j t u. apply label_one; [exact UC|exact (UB CLabel)].
  Qed.
  Lemma checked_next (pl td : bool) c c' V B w v y ar a : reachable_with true (links_safe true) c -> notebook (c_snap c) V B -> inquiry (c_snap c) V ->
    ending (map fst V) B -> In (txt "->", ar) V -> built_in (c_snap c) ar CReduction -> asked cfg (c_snap c) fuel (memory td c V ar) c ->
    In w (map fst V) -> In v (map fst V) ->
    (forall k l, In (w, k) V -> In (v, l) V -> harmless (c_snap c) k /\ decided (c_snap c) k l y) ->
    (pl = true -> unbracketed (c_snap c) V /\ ~ In w reserved /\ ~ In v reserved) ->
    execute cfg fuel (line (if pl then PlainCheck w v else Check w v)) c = Ok (a, c') ->
    worded (fun w k => In (w, k) V) y a /\ c_snap c' = c_snap c /\ reachable_with true (links_safe true) c' /\
    asked cfg (c_snap c) fuel (memory td c V ar) c'.
  Proof.
    intros R NB Q EN Ja Ka H Jw Jv HD PL E. pose proof (reachable_without _ _ _ R) as R0. pose proof (reachable_ready _ _ R0) as RD.
    apply in_map_iff in Jw. destruct Jw as ([w' k] & <- & Jw). apply in_map_iff in Jv. destruct Jv as ([v' l] & <- & Jv). cbn [fst] in *.
    pose proof (sane_numbers _ (ready_sane _ RD)) as N.
    destruct (links_agree_reachable true c R) as (LC & LR & UC).
    destruct (reachable_built_in true c R0 CLabel) as (lab & BL & _ & UL & _ & _ & CI).
    assert (UB : forall cc x y, built_in (c_snap c) x cc -> built_in (c_snap c) y cc -> x = y).
    { intros cc y1 y2 Y Z. destruct (reachable_built_in true c R0 cc) as (n0 & _ & _ & U & _). rewrite (U y1 Y), (U y2 Z). reflexivity. }
    assert (UL' := UB CLabel).
    assert (BI : forall cc y, concrete_concept_id cfg (c_snap c) delta_default cc = Ok (Some y) -> is_built_in (c_snap c) y cc).
    { intros cc y0 X. destruct (reachable_built_in true c R0 cc) as (n0 & B' & _ & _ & _ & _ & CI').
      rewrite (concrete_id_plain _ _ _ F) in X. rewrite (concrete_id_plain _ _ _ fair0) in CI'.
      rewrite X in CI'. injection CI' as ->. exists n0. auto. }
    assert (TF : forall x : bool, concrete_concept_id cfg (c_snap c) delta_default (if x then CTrue else CFalse) <> Ok None).
    { intros x X. destruct (reachable_built_in true c R0 (if x then CTrue else CFalse)) as (n0 & _ & _ & _ & _ & _ & CI').
      rewrite (concrete_id_plain _ _ _ F) in X. rewrite (concrete_id_plain _ _ _ fair0) in CI'. congruence. }
    assert (ONE : forall j t u, carries_label (c_snap c) j t -> carries_label (c_snap c) j u -> t = u).
    { intros j t u. apply label_one; [exact UC|exact UL']. }
    rewrite (concrete_id_plain cfg0 _ _ fair0) in CI. rewrite <- (concrete_id_plain cfg _ _ F) in CI.
    pose proof (nb_operators _ _ _ NB) as ON. pose proof (reachable_keyed _ _ R0) as HK.
    assert (SyW : forall u j, In (u, j) V -> word u) by (intros u j J; apply (nb_symbol _ _ _ NB _ _ J)).
    assert (SyS : forall u j, In (u, j) V -> settled_symbol (c_snap c) j u) by (intros u j; exact (notebook_settled _ _ _ _ _ NB)).
    assert (SyE : forall u j, In (u, j) V -> exists z t, ends (c_snap c) j z t /\ In (t, z) V) by (intros u j; exact (sym_ends _ _ _ NB EN u j)).
    assert (SyR : forall u j q, In (u, j) V -> reduces (c_snap c) j q -> exists t, In (t, q) V) by (intros u j q; exact (sym_reduces _ _ _ NB u j q)).
    assert (SyI : forall u j j', In (u, j) V -> In (u, j') V -> j = j') by (intros u j j'; exact (sym_same _ _ _ NB u j j')).
    assert (SyN : forall u u' j, In (u, j) V -> In (u', j) V -> u = u') by (intros u u' j; exact (sym_name _ _ _ NB ONE u u' j)).
    assert (AsW : forall x, built_in (c_snap c) x CAssociativity -> In (txt "assoc", x) V)
      by (intros x; apply (inquiry_words _ _ UB _ _ _ Q); cbn; tauto).
    assert (TrW : forall x, built_in (c_snap c) x CTrue -> In (txt "true", x) V)
      by (intros x; apply (inquiry_words _ _ UB _ _ _ Q); cbn; tauto).
    assert (FaW : forall x, built_in (c_snap c) x CFalse -> In (txt "false", x) V)
      by (intros x; apply (inquiry_words _ _ UB _ _ _ Q); cbn; tauto).
    assert (ArP : forall u b, In (u, b) V -> Checks.uncomposed (c_snap c) ar b /\ unmatched (c_snap c) ar b)
      by (intros u b; exact (inquiry_arrow _ _ _ NB ar u b Q Ka)).
    assert (AsP : forall x, built_in (c_snap c) x CAssociativity -> Checks.uncomposed (c_snap c) x ar /\ unmatched (c_snap c) x ar)
      by (intros x; exact (inquiry_assoc _ _ ar _ x Q Ja)).
    destruct (HD _ _ Jw Jv) as [HL DE]. pose proof (nb_unruled _ _ _ NB) as UN.
    pose proof (proj1 (nb_symbol _ _ _ NB _ _ Jw)) as Mw. pose proof (proj1 (nb_symbol _ _ _ NB _ _ Jv)) as Mv. pose proof (proj1 (nb_symbol _ _ _ NB _ _ Ja)) as Ma.
    assert (Z : worded (fun w k => In (w, k) V) y a /\ (c_snap c' = c_snap c /\ c_delta c' = delta_default /\
      good cfg (c_snap c) fuel (memory td c V ar) (start_state (c_cache c') (c_tick c'))) /\
      forall z c1, run_command cfg fuel (line (if pl then PlainCheck w' v' else Check w' v')) c = Ok (z, c1) -> c_delta c1 = delta_default).
    { destruct pl.
      - destruct (PL eq_refl) as (UBr & Nw & Nv). pose proof (ub_arrow _ _ UBr _ Ka) as Rar. pose proof (ub_plain _ _ UBr _ _ Jw Nw) as Rw. pose proof (ub_plain _ _ UBr _ _ Jv Nv) as Rv.
        destruct (reachable_built_in true c R0 CPrecedes) as (pr & _ & _ & _ & _ & _ & CP).
        rewrite (concrete_id_plain cfg0 _ _ fair0) in CP. rewrite <- (concrete_id_plain cfg _ _ F) in CP.
        destruct (question_flat_executed cfg (c_snap c) fuel F N LC LR UL' lab CI BL BI ON HK UN (fun u j => In (u, j) V) SyW SyS SyE SyR SyI SyN
        ar Ka Ja AsW TrW FaW TF ArP AsP _ (fun x r M => proj1 M) (fun x r => memory_checks td c V B ar x r NB)
          pr k l w' v' y c a c' RD CP (UB CPrecedes) Rar Rw Rv Jw Jv Mw Ma Mv HL DE H E) as (Wa & G).
        split; [exact Wa|]. split; [exact G|]. intros z c1 E1.
        destruct (question_flat_run cfg (c_snap c) fuel F N LC LR UL' lab CI BL BI ON HK UN (fun u j => In (u, j) V) SyW SyS SyE SyR SyI SyN
        ar Ka Ja AsW TrW FaW TF ArP AsP _ (fun x r M => proj1 M) (fun x r => memory_checks td c V B ar x r NB)
          pr k l w' v' y c z c1 CP (UB CPrecedes) Rar Rw Rv Jw Jv Mw Ma Mv HL DE H E1) as ((_ & D2 & _) & _). exact D2.
      - destruct (question_executed cfg (c_snap c) fuel F N LC LR UL' lab CI BL BI ON HK UN (fun u j => In (u, j) V) SyW SyS SyE SyR SyI SyN
        ar Ka Ja AsW TrW FaW TF ArP AsP _ (fun x r M => proj1 M) (fun x r => memory_checks td c V B ar x r NB)
          k l w' v' y c a c' RD Jw Jv Mw Ma Mv HL DE H E) as (Wa & G).
        split; [exact Wa|]. split; [exact G|]. intros z c1 E1.
        destruct (question_run cfg (c_snap c) fuel F N LC LR UL' lab CI BL BI ON HK UN (fun u j => In (u, j) V) SyW SyS SyE SyR SyI SyN
        ar Ka Ja AsW TrW FaW TF ArP AsP _ (fun x r M => proj1 M) (fun x r => memory_checks td c V B ar x r NB)
          k l w' v' y c z c1 Jw Jv Mw Ma Mv HL DE H E1) as ((_ & D2 & _) & _). exact D2. }
    destruct Z as (Wa & (S1 & D1 & G1) & Z). destruct (execute_run cfg fuel _ c _ c' F RD E) as (z & c1 & E1 & _). pose proof (Z _ _ E1) as D2.
    assert (R' : reachable_with true (links_safe true) c').
    { eapply (reach_with_execute true (links_safe true) cfg fuel _ c _ c1 _ c' F D R E1); [|exact E]. rewrite D2. intros id x []. }
    split; [exact Wa|]. split; [exact S1|]. split; [exact R'|]. split; [exact S1|]. split; [exact D1|].
    split; [apply (reachable_ready true c' (reachable_without _ _ _ R'))|exact G1].
  Qed.
  Lemma agreed_next (pl td : bool) c c' V B w v m n z0 ar a : reachable_with true (links_safe true) c -> notebook (c_snap c) V B -> inquiry (c_snap c) V ->
    ending (map fst V) B -> In (txt "->", ar) V -> built_in (c_snap c) ar CReduction -> asked cfg (c_snap c) fuel (memory td c V ar) c ->
    In w (map fst V) -> In v (map fst V) -> away B m w z0 -> away B n v z0 -> ~ In z0 [txt "let"; txt "forget"; txt "label_of"] ->
    (pl = true -> unbracketed (c_snap c) V /\ ~ In w reserved /\ ~ In v reserved) ->
    execute cfg fuel (line (if pl then PlainCheck w v else Check w v)) c = Ok (a, c') ->
    a = (if Nat.ltb n m then txt "true" else txt "false") /\ c_snap c' = c_snap c /\ reachable_with true (links_safe true) c' /\
    asked cfg (c_snap c) fuel (memory td c V ar) c'.
  Proof.
    intros R NB Q EN Ja Ka H Jw Jv Aw Av NZ PL E. destruct (store_facts c R) as [UB ONE]. pose proof (book_single _ _ _ NB ONE) as SG.
    apply (checked_next pl td c c' V B w v (Says (Nat.ltb n m)) ar a R NB Q EN Ja Ka H Jw Jv); [|exact PL|exact E].
    intros k l Jk Jl. split.
    - apply (peaceful_harmless _ _ _ NB ONE UB w _ Q); [|exact Jk]. intros x L. rewrite (leads_to_one _ _ _ _ SG L (away_leads _ _ _ _ Aw)). exact NZ.
    - exact (verdict_decided _ _ _ NB EN ONE _ _ _ (away_verdict B SG _ _ _ _ _ Aw Av) _ _ Jk Jl).
  Qed.
  Lemma doubted_next (pl td : bool) c c' V B w v z z' ar a : reachable_with true (links_safe true) c -> notebook (c_snap c) V B -> inquiry (c_snap c) V ->
    uninvolved (c_snap c) V ->
    ending (map fst V) B -> In (txt "->", ar) V -> built_in (c_snap c) ar CReduction -> asked cfg (c_snap c) fuel (memory td c V ar) c ->
    In w (map fst V) -> In v (map fst V) -> leads_to B w z -> leads_to B v z' -> z <> z' -> ~ In z reserved -> ~ In z' reserved ->
    (pl = true -> unbracketed (c_snap c) V /\ ~ In w reserved /\ ~ In v reserved) ->
    execute cfg fuel (line (Doubt pl w v)) c = Ok (a, c') ->
    a = joined [z; txt "->"; z'] /\ c_snap c' = c_snap c /\ reachable_with true (links_safe true) c' /\
    asked cfg (c_snap c) fuel (memory td c V ar) c'.
  Proof.
    intros R NB Q QD EN Ja Ka H Jw Jv Lw Lv NE Rz Rz' PL E. destruct (store_facts c R) as [UB ONE]. pose proof (book_single _ _ _ NB ONE) as SG.
    destruct (leads_away _ _ _ Lw) as (m & Aw). destruct (leads_away _ _ _ Lv) as (n & Av).
    assert (X : exists e e', In (z, e) V /\ In (z', e') V /\ forall k l, In (w, k) V -> In (v, l) V -> decided (c_snap c) k l (Stays e e')).
    { apply in_map_iff in Jw. destruct Jw as ([w' k] & <- & Jw). apply in_map_iff in Jv. destruct Jv as ([v' l] & <- & Jv). cbn [fst] in *.
      destruct (apart_decided _ _ _ NB EN ONE UB z z' QD NE Rz Rz' _ _ _ _ _ _ _ (le_n _) Aw Av Jw Jv) as (e & e' & Je & Je' & De).
      exists e, e'. split; [exact Je|]. split; [exact Je'|]. intros k' l' Jk Jl.
      rewrite (sym_same _ _ _ NB _ _ _ Jk Jw), (sym_same _ _ _ NB _ _ _ Jl Jv). exact De. }
    destruct X as (e & e' & Je & Je' & De).
    destruct (checked_next pl td c c' V B w v (Stays e e') ar a R NB Q EN Ja Ka H Jw Jv) as (Wa & Rest); [|exact PL| |].
    - intros k l Jk Jl. split; [|exact (De _ _ Jk Jl)].
      apply (peaceful_harmless _ _ _ NB ONE UB w _ Q); [|exact Jk]. intros x L. rewrite (leads_to_one _ _ _ _ SG L Lw).
      intros J. apply Rz. revert J. unfold reserved. cbn [In map]. tauto.
    - destruct pl; exact E.
    - split; [|exact Rest]. destruct Wa as (u & u' & Ju & Ju' & ->).
      rewrite (sym_name _ _ _ NB ONE _ _ _ Ju Je), (sym_name _ _ _ NB ONE _ _ _ Ju' Je'). reflexivity.
  Qed.

  Lemma phrased_next (pl : bool) c c' V B ws ar a : reachable_with true (links_safe true) c -> notebook (c_snap c) V B -> phrasing (c_snap c) V ->
    ending (map fst V) B -> In (txt "->", ar) V -> built_in (c_snap c) ar CReduction -> asked cfg (c_snap c) fuel (memory true c V ar) c ->
    le 2 (List.length ws) -> Forall (fun w => In w (map fst V) /\ common B w) ws ->
    (pl = true -> unbracketed (c_snap c) V) -> execute cfg fuel (line (if pl then PlainPhrase ws else Phrase ws)) c = Ok (a, c') ->
    (exists vs, Forall2 (leads_to B) ws vs /\ a = joined vs) /\ c_snap c' = c_snap c /\ reachable_with true (links_safe true) c' /\
    asked cfg (c_snap c) fuel (memory true c V ar) c'.
  Proof.
    intros R NB Q EN Ja Ka H L2 WS PL E. pose proof (reachable_without _ _ _ R) as R0. pose proof (reachable_ready _ _ R0) as RD.
    pose proof (sane_numbers _ (ready_sane _ RD)) as N.
    destruct (links_agree_reachable true c R) as (LC & LR & UC).
    destruct (reachable_built_in true c R0 CLabel) as (lab & BL & _ & UL & _ & _ & CI).
    assert (UB : forall cc x y, built_in (c_snap c) x cc -> built_in (c_snap c) y cc -> x = y).
    { intros cc y1 y2 Y Z. destruct (reachable_built_in true c R0 cc) as (n0 & _ & _ & U & _). rewrite (U y1 Y), (U y2 Z). reflexivity. }
    assert (UL' := UB CLabel).
    assert (BI : forall cc y, concrete_concept_id cfg (c_snap c) delta_default cc = Ok (Some y) -> is_built_in (c_snap c) y cc).
    { intros cc y0 X. destruct (reachable_built_in true c R0 cc) as (n0 & B' & _ & _ & _ & _ & CI').
      rewrite (concrete_id_plain _ _ _ F) in X. rewrite (concrete_id_plain _ _ _ fair0) in CI'.
      rewrite X in CI'. injection CI' as ->. exists n0. auto. }
    assert (ONE : forall j t u, carries_label (c_snap c) j t -> carries_label (c_snap c) j u -> t = u).
    { intros j t u. apply label_one; [exact UC|exact UL']. }
    rewrite (concrete_id_plain cfg0 _ _ fair0) in CI. rewrite <- (concrete_id_plain cfg _ _ F) in CI.
    pose proof (nb_operators _ _ _ NB) as ON. pose proof (reachable_keyed _ _ R0) as HK.
    set (sym := saying (c_snap c) V).
    assert (SyW : forall u j, sym u j -> word u) by (intros u j [J _]; apply (nb_symbol _ _ _ NB _ _ J)).
    assert (SyS : forall u j, sym u j -> settled_symbol (c_snap c) j u) by (intros u j [J _]; exact (notebook_settled _ _ _ _ _ NB J)).
    assert (SyE : forall u j, sym u j -> exists z t, ends (c_snap c) j z t /\ sym t z) by (intros u j; exact (saying_ends _ _ _ NB EN u j)).
    assert (SyR : forall u j q, sym u j -> reduces (c_snap c) j q -> exists t, sym t q) by (intros u j q; exact (saying_reduces _ _ _ NB u j q)).
    assert (SyI : forall u j j', sym u j -> sym u j' -> j = j') by (intros u j j' [J _] [J' _]; exact (sym_same _ _ _ NB u j j' J J')).
    assert (SyN : forall u u' j, sym u j -> sym u' j -> u = u') by (intros u u' j [J _] [J' _]; exact (sym_name _ _ _ NB ONE u u' j J J')).
    assert (SyT : forall u j cc, sym u j -> built_in (c_snap c) j cc -> ~ In cc [CLet; CForget; CLabel; CReduction; CGreaterThan]).
    { intros u j cc J K. rewrite (saying_built _ _ _ _ _ Q J K). cbn. intuition discriminate. }
    assert (SyP : forall u j p, sym u j -> mentions (c_snap c) p j -> ~ pattern (c_snap c) p)
      by (intros u j p J; exact (ph_patterns _ _ Q _ _ _ (proj1 J) (saying_common _ _ _ _ J))).
    assert (SyC : forall u t j l, sym u j -> sym t l -> Checks.uncomposed (c_snap c) j l)
      by (intros u t j l J J' p; exact (ph_apart _ _ Q _ _ _ _ p (proj1 J) (proj1 J') (saying_common _ _ _ _ J) (saying_common _ _ _ _ J'))).
    assert (AsW : forall x, built_in (c_snap c) x CAssociativity -> sym (txt "assoc") x) by (intros x; exact (saying_assoc _ _ _ NB ONE UB x Q)).
    assert (KS : exists ks, Forall2 (means (c_snap c)) ws ks /\ Forall2 sym ws ks /\ (pl = true -> Forall (fun k => ~ ranked (c_snap c) k) ks)).
    { clear E L2. induction WS as [|w ws (Jw & P) _ (ks & M & S & U)]; [exists []; repeat split; constructor|].
      apply in_map_iff in Jw. destruct Jw as ([w' k] & <- & J). cbn [fst] in *. exists (k :: ks).
      split; [constructor; [apply (nb_symbol _ _ _ NB _ _ J)|exact M]|]. split; [constructor; [exact (saying_of _ _ _ NB ONE _ _ P J)|exact S]|].
      intros X. constructor; [|exact (U X)]. exact (ub_plain _ _ (PL X) _ _ J (P _ (or_introl eq_refl))). }
    destruct KS as (ks & M & S & U).
    assert (Z : (exists vs, Phrases.answer_words (c_snap c) sym ks vs /\ a = joined vs) /\ (c_snap c' = c_snap c /\ c_delta c' = delta_default /\
      good cfg (c_snap c) fuel (memory true c V ar) (start_state (c_cache c') (c_tick c'))) /\
      forall z c1, run_command cfg fuel (line (if pl then PlainPhrase ws else Phrase ws)) c = Ok (z, c1) -> c_delta c1 = delta_default).
    { destruct pl.
      - specialize (U eq_refl). destruct (Phrases.flat_executed cfg (c_snap c) fuel F N LC LR UL' lab CI BL BI ON HK sym SyW SyS SyE SyR SyI SyN SyT SyP SyC AsW (nb_unruled _ _ _ NB)
        _ (fun x r M => proj2 M) (fun x r => memory_words c V B ar x r NB)
          ws ks c a c' RD L2 M S U H E) as (An & G).
        split; [exact An|]. split; [exact G|]. intros z c1 E1. destruct (Phrases.flat_run cfg (c_snap c) fuel F N LC LR UL' lab CI BL BI ON HK sym SyW SyS SyE SyR SyI SyN SyT SyP SyC AsW (nb_unruled _ _ _ NB)
        _ (fun x r M => proj2 M) (fun x r => memory_words c V B ar x r NB)
          ws ks c z c1 L2 M S U H E1) as ((_ & D2 & _) & _). exact D2.
      - destruct (Phrases.words_executed cfg (c_snap c) fuel F N LC LR UL' lab CI BL BI ON HK sym SyW SyS SyE SyR SyI SyN SyT SyP SyC AsW (nb_unruled _ _ _ NB)
        _ (fun x r M => proj2 M) (fun x r => memory_words c V B ar x r NB)
          ws ks c a c' RD L2 M S H E) as (An & G).
        split; [exact An|]. split; [exact G|]. intros z c1 E1. destruct (Phrases.words_run cfg (c_snap c) fuel F N LC LR UL' lab CI BL BI ON HK sym SyW SyS SyE SyR SyI SyN SyT SyP SyC AsW (nb_unruled _ _ _ NB)
        _ (fun x r M => proj2 M) (fun x r => memory_words c V B ar x r NB)
          ws ks c z c1 L2 M S H E1) as ((_ & D2 & _) & _). exact D2. }
    destruct Z as ((vs & A & ->) & (S1 & D1 & G1) & Z). destruct (execute_run cfg fuel _ c _ c' F RD E) as (z & c1 & E1 & _). pose proof (Z _ _ E1) as D2.
    assert (R' : reachable_with true (links_safe true) c').
    { eapply (reach_with_execute true (links_safe true) cfg fuel _ c _ c1 _ c' F D R E1); [|exact E]. rewrite D2. intros id x []. }
    split.
    { exists vs. split; [|reflexivity]. destruct A as (zs & A1 & A2). clear - A1 A2 S NB EN ONE SyN. revert ks zs S A1 A2. 
      intros ks zs S. revert zs vs. induction S as [|w k ws ks [J _] _ IH]; intros zs vs A1 A2.
      - inversion A1; subst. inversion A2; subst. constructor.
      - inversion A1 as [|? z ? zs' (u & En & Su) A1']; subst. inversion A2 as [|v ? vs' ? Sv A2']; subst. constructor; [|exact (IH _ _ A1' A2')].
        rewrite (SyN _ _ _ Sv Su). exact (said_leads _ _ _ NB EN ONE _ _ _ _ J En (proj1 Su)). }
    split; [exact S1|]. split; [exact R'|]. split; [exact S1|]. split; [exact D1|].
    split; [apply (reachable_ready true c' (reachable_without _ _ _ R'))|exact G1].
  Qed.

  Lemma expressed_next (tx : text) (ok : Prop) c c' V B ws ar a : reachable_with true (links_safe true) c -> notebook (c_snap c) V B -> phrasing (c_snap c) V ->
    ending (map fst V) B -> In (txt "->", ar) V -> built_in (c_snap c) ar CReduction -> asked cfg (c_snap c) fuel (memory false c V ar) c ->
    (exists p, compound p /\ tx = spelled p /\ ws = words_of p /\ ok) \/ (le 2 (List.length ws) /\ tx = joined ws /\ unbracketed (c_snap c) V /\ ok) \/
    (exists os, sized (Several os) /\ tx = outlined os /\ ws = all_terms os /\ unbracketed (c_snap c) V /\ ok = unambiguous (Several os)) ->
    Forall (fun w => In w (map fst V) /\ common B w) ws -> execute cfg fuel tx c = Ok (a, c') ->
    ((exists vs, Forall2 (leads_to B) ws vs /\ bare a = joined vs /\ ok) \/ (a = refusal /\ ~ ok)) /\ c_snap c' = c_snap c /\ reachable_with true (links_safe true) c' /\
    asked cfg (c_snap c) fuel (memory false c V ar) c'.
  Proof.
    intros R NB Q EN Ja Ka H L2 WS E. pose proof (reachable_without _ _ _ R) as R0. pose proof (reachable_ready _ _ R0) as RD.
    pose proof (sane_numbers _ (ready_sane _ RD)) as N.
    destruct (links_agree_reachable true c R) as (LC & LR & UC).
    destruct (reachable_built_in true c R0 CLabel) as (lab & BL & _ & UL & _ & _ & CI).
    assert (UB : forall cc x y, built_in (c_snap c) x cc -> built_in (c_snap c) y cc -> x = y).
    { intros cc y1 y2 Y Z. destruct (reachable_built_in true c R0 cc) as (n0 & _ & _ & U & _). rewrite (U y1 Y), (U y2 Z). reflexivity. }
    assert (UL' := UB CLabel).
    assert (BI : forall cc y, concrete_concept_id cfg (c_snap c) delta_default cc = Ok (Some y) -> is_built_in (c_snap c) y cc).
    { intros cc y0 X. destruct (reachable_built_in true c R0 cc) as (n0 & B' & _ & _ & _ & _ & CI').
      rewrite (concrete_id_plain _ _ _ F) in X. rewrite (concrete_id_plain _ _ _ fair0) in CI'.
      rewrite X in CI'. injection CI' as ->. exists n0. auto. }
    assert (ONE : forall j t u, carries_label (c_snap c) j t -> carries_label (c_snap c) j u -> t = u).
    { intros j t u. apply label_one; [exact UC|exact UL']. }
    rewrite (concrete_id_plain cfg0 _ _ fair0) in CI. rewrite <- (concrete_id_plain cfg _ _ F) in CI.
    pose proof (nb_operators _ _ _ NB) as ON. pose proof (reachable_keyed _ _ R0) as HK.
    set (sym := saying (c_snap c) V).
    assert (SyW : forall u j, sym u j -> word u) by (intros u j [J _]; apply (nb_symbol _ _ _ NB _ _ J)).
    assert (SyS : forall u j, sym u j -> settled_symbol (c_snap c) j u) by (intros u j [J _]; exact (notebook_settled _ _ _ _ _ NB J)).
    assert (SyE : forall u j, sym u j -> exists z t, ends (c_snap c) j z t /\ sym t z) by (intros u j; exact (saying_ends _ _ _ NB EN u j)).
    assert (SyR : forall u j q, sym u j -> reduces (c_snap c) j q -> exists t, sym t q) by (intros u j q; exact (saying_reduces _ _ _ NB u j q)).
    assert (SyI : forall u j j', sym u j -> sym u j' -> j = j') by (intros u j j' [J _] [J' _]; exact (sym_same _ _ _ NB u j j' J J')).
    assert (SyN : forall u u' j, sym u j -> sym u' j -> u = u') by (intros u u' j [J _] [J' _]; exact (sym_name _ _ _ NB ONE u u' j J J')).
    assert (SyT : forall u j cc, sym u j -> built_in (c_snap c) j cc -> ~ In cc [CLet; CForget; CLabel; CReduction; CGreaterThan]).
    { intros u j cc J K. rewrite (saying_built _ _ _ _ _ Q J K). cbn. intuition discriminate. }
    assert (SyP : forall u j p, sym u j -> mentions (c_snap c) p j -> ~ pattern (c_snap c) p)
      by (intros u j q J; exact (ph_patterns _ _ Q _ _ _ (proj1 J) (saying_common _ _ _ _ J))).
    assert (SyC : forall u t j l, sym u j -> sym t l -> Checks.uncomposed (c_snap c) j l)
      by (intros u t j l J J' q; exact (ph_apart _ _ Q _ _ _ _ q (proj1 J) (proj1 J') (saying_common _ _ _ _ J) (saying_common _ _ _ _ J'))).
    assert (AsW : forall x, built_in (c_snap c) x CAssociativity -> sym (txt "assoc") x) by (intros x; exact (saying_assoc _ _ _ NB ONE UB x Q)).
    assert (KS : Forall (fun w => exists k, means (c_snap c) w k /\ sym w k /\ (unbracketed (c_snap c) V -> ~ ranked (c_snap c) k)) ws).
    { eapply Forall_impl; [|exact WS]. intros w (Jw & P). apply in_map_iff in Jw. destruct Jw as ([w' k] & <- & J). cbn [fst] in *. exists k.
      split; [apply (nb_symbol _ _ _ NB _ _ J)|]. split; [exact (saying_of _ _ _ NB ONE _ _ P J)|].
      intros UBr. exact (ub_plain _ _ UBr _ _ J (P _ (or_introl eq_refl))). }
    assert (Z : ((Groups.answer_words (c_snap c) sym ws a /\ ok) \/ (a = refusal /\ ~ ok)) /\ (c_snap c' = c_snap c /\ c_delta c' = delta_default /\
      good cfg (c_snap c) fuel (memory false c V ar) (start_state (c_cache c') (c_tick c'))) /\
      forall z c1, run_command cfg fuel tx c = Ok (z, c1) -> c_delta c1 = delta_default).
    { destruct L2 as [(p & Cp & -> & -> & OK)|[(L2 & -> & UBr & OK)|(os & Sz & -> & -> & UBr & ->)]].
      - assert (KS' : Forall (Groups.read (c_snap c) sym) (words_of p)) by (eapply Forall_impl; [|exact KS]; intros w (k & M & Y & _); exists k; auto).
        destruct (Groups.words_executed cfg (c_snap c) fuel F N LC LR UL' lab CI BL BI ON HK sym SyW SyS SyE SyR SyI SyN SyT SyP SyC AsW (nb_unruled _ _ _ NB)
        _ (fun x r M => proj2 M) (fun x r => memory_groups c V B ar x r NB)
          p c a c' RD Cp KS' H E) as (An & G).
        split; [auto|]. split; [exact G|]. intros z c1 E1. destruct (Groups.words_run cfg (c_snap c) fuel F N LC LR UL' lab CI BL BI ON HK sym SyW SyS SyE SyR SyI SyN SyT SyP SyC AsW (nb_unruled _ _ _ NB)
        _ (fun x r M => proj2 M) (fun x r => memory_groups c V B ar x r NB)
          p c z c1 Cp KS' H E1) as ((_ & D2 & _) & _). exact D2.
      - assert (KS' : Forall (fun w => exists k, means (c_snap c) w k /\ sym w k /\ ~ ranked (c_snap c) k) ws)
          by (eapply Forall_impl; [|exact KS]; intros w (k & M & Y & U); exists k; auto).
        destruct (Groups.flat_executed cfg (c_snap c) fuel F N LC LR UL' lab CI BL BI ON HK sym SyW SyS SyE SyR SyI SyN SyT SyP SyC AsW (nb_unruled _ _ _ NB)
        _ (fun x r M => proj2 M) (fun x r => memory_groups c V B ar x r NB)
          ws c a c' RD L2 KS' H E) as (An & G).
        split; [auto|]. split; [exact G|]. intros z c1 E1. destruct (Groups.flat_run cfg (c_snap c) fuel F N LC LR UL' lab CI BL BI ON HK sym SyW SyS SyE SyR SyI SyN SyT SyP SyC AsW (nb_unruled _ _ _ NB)
        _ (fun x r M => proj2 M) (fun x r => memory_groups c V B ar x r NB)
          ws c z c1 L2 KS' H E1) as ((_ & D2 & _) & _). exact D2.
      - assert (KS' : Forall (Groups.telling (c_snap c) sym) (all_terms os))
          by (eapply Forall_impl; [|exact KS]; intros w (k & M & Y & U); exists k; auto).
        destruct (Groups.outlined_executed cfg (c_snap c) fuel F N LC LR UL' lab CI BL BI ON HK sym SyW SyS SyE SyR SyI SyN SyT SyP SyC AsW (nb_unruled _ _ _ NB)
        _ (fun x r M => proj2 M) (fun x r => memory_groups c V B ar x r NB)
          os c a c' RD Sz KS' H E) as (An & G).
        split; [exact An|]. split; [exact G|]. intros z c1 E1. destruct (Groups.outlined_run cfg (c_snap c) fuel F N LC LR UL' lab CI BL BI ON HK sym SyW SyS SyE SyR SyI SyN SyT SyP SyC AsW (nb_unruled _ _ _ NB)
        _ (fun x r M => proj2 M) (fun x r => memory_groups c V B ar x r NB)
          os c z c1 Sz KS' H E1) as ((_ & D2 & _) & _). exact D2. }
    destruct Z as (An & (S1 & D1 & G1) & Z). destruct (execute_run cfg fuel _ c _ c' F RD E) as (z & c1 & E1 & _). pose proof (Z _ _ E1) as D2.
    assert (R' : reachable_with true (links_safe true) c').
    { eapply (reach_with_execute true (links_safe true) cfg fuel _ c _ c1 _ c' F D R E1); [|exact E]. rewrite D2. intros id x []. }
    split.
    { destruct An as [[(vs & A & X) OK]|An]; [left|right; exact An]. exists vs. split; [|split; [exact X|exact OK]]. clear - A NB EN ONE. induction A as [|w v ws vs A _ IH]; constructor; [|exact IH]. destruct A as (k & y & [J _] & En & Sv). exact (said_leads _ _ _ NB EN ONE _ _ _ _ J En (proj1 Sv)). }
    split; [exact S1|]. split; [exact R'|]. split; [exact S1|]. split; [exact D1|].
    split; [apply (reachable_ready true c' (reachable_without _ _ _ R'))|exact G1].
  Qed.

  Lemma grouped_next (tx : text) c c' V B ws ar a : reachable_with true (links_safe true) c -> notebook (c_snap c) V B -> phrasing (c_snap c) V ->
    ending (map fst V) B -> In (txt "->", ar) V -> built_in (c_snap c) ar CReduction -> asked cfg (c_snap c) fuel (memory false c V ar) c ->
    (exists p, compound p /\ tx = spelled p /\ ws = words_of p) \/ (le 2 (List.length ws) /\ tx = joined ws /\ unbracketed (c_snap c) V) ->
    Forall (fun w => In w (map fst V) /\ common B w) ws -> execute cfg fuel tx c = Ok (a, c') ->
    (exists vs, Forall2 (leads_to B) ws vs /\ bare a = joined vs) /\ c_snap c' = c_snap c /\ reachable_with true (links_safe true) c' /\
    asked cfg (c_snap c) fuel (memory false c V ar) c'.
  Proof.
    intros R NB Q EN Ja Ka H L2 WS E.
    destruct (expressed_next tx True c c' V B ws ar a R NB Q EN Ja Ka H) as ([(vs & A & X & _)|[_ K]] & Z); [|exact WS|exact E| |destruct (K I)].
    - destruct L2 as [(p & C & T & W)|(L & T & U)]; [left; exists p; auto|right; left; auto].
    - split; [exists vs; auto|exact Z].
  Qed.

  (** Declarations about words that are known, and forgetting that is refused. *)
  Lemma arrow_benign td c V B ar : reachable_with true (links_safe true) c -> notebook (c_snap c) V B -> inquiry (c_snap c) V ->
    ending (map fst V) B -> In (txt "->", ar) V -> built_in (c_snap c) ar CReduction -> benign cfg (c_snap c) fuel (memory td c V ar) (txt "->") ar.
  Proof.
    intros R NB Q EN Ja Ka. pose proof (reachable_without _ _ _ R) as R0. pose proof (reachable_ready _ _ R0) as RD.
    pose proof (sane_numbers _ (ready_sane _ RD)) as N. destruct (links_agree_reachable true c R) as (LC & LR & UC).
    destruct (reachable_built_in true c R0 CLabel) as (lab & BL & _ & UL & _ & _ & CI).
    destruct (store_facts c R) as [UB ONE]. assert (UL' := UB CLabel).
    assert (BI : forall cc y, concrete_concept_id cfg (c_snap c) delta_default cc = Ok (Some y) -> is_built_in (c_snap c) y cc).
    { intros cc y0 X. destruct (reachable_built_in true c R0 cc) as (n0 & B' & _ & _ & _ & _ & CI').
      rewrite (concrete_id_plain _ _ _ F) in X. rewrite (concrete_id_plain _ _ _ fair0) in CI'.
      rewrite X in CI'. injection CI' as ->. exists n0. auto. }
    rewrite (concrete_id_plain cfg0 _ _ fair0) in CI. rewrite <- (concrete_id_plain cfg _ _ F) in CI.
    pose proof (nb_operators _ _ _ NB) as ON. pose proof (reachable_keyed _ _ R0) as HK.
    assert (SyW : forall u j, In (u, j) V -> word u) by (intros u j J; apply (nb_symbol _ _ _ NB _ _ J)).
    assert (SyS : forall u j, In (u, j) V -> settled_symbol (c_snap c) j u) by (intros u j; exact (notebook_settled _ _ _ _ _ NB)).
    assert (SyE : forall u j, In (u, j) V -> exists z t, ends (c_snap c) j z t /\ In (t, z) V) by (intros u j; exact (sym_ends _ _ _ NB EN u j)).
    assert (SyR : forall u j q, In (u, j) V -> reduces (c_snap c) j q -> exists t, In (t, q) V) by (intros u j q; exact (sym_reduces _ _ _ NB u j q)).
    assert (SyN : forall u u' j, In (u, j) V -> In (u', j) V -> u = u') by (intros u u' j; exact (sym_name _ _ _ NB ONE u u' j)).
    assert (AsW : forall x, built_in (c_snap c) x CAssociativity -> In (txt "assoc", x) V)
      by (intros x; apply (inquiry_words _ _ UB _ _ _ Q); cbn; tauto).
    assert (AsP : forall x, built_in (c_snap c) x CAssociativity -> Checks.uncomposed (c_snap c) x ar /\ unmatched (c_snap c) x ar)
      by (intros x; exact (inquiry_assoc _ _ ar _ x Q Ja)).
    intros n t s0 y s' (kd & -> & Kd) G X.
    refine (proj1 (Checks.arrow_assoc cfg (c_snap c) fuel F N LC LR UL' lab CI BL BI ON HK (fun u j => In (u, j) V) SyW SyS SyE SyR SyN
      ar Ka Ja AsW AsP _ (fun x r M => proj1 M) (fun x r => memory_checks td c V B ar x r NB) n _ _ _ _ _ G X)).
    exists (txt "->"), kd. auto.
  Qed.
  Lemma word_benign (td : bool) c V B ar w k : reachable_with true (links_safe true) c -> notebook (c_snap c) V B -> phrasing (c_snap c) V ->
    ending (map fst V) B -> common B w -> In (w, k) V -> benign cfg (c_snap c) fuel (memory td c V ar) w k.
  Proof.
    intros R NB Q EN Cw Jw. pose proof (reachable_without _ _ _ R) as R0. pose proof (reachable_ready _ _ R0) as RD.
    pose proof (sane_numbers _ (ready_sane _ RD)) as N. destruct (links_agree_reachable true c R) as (LC & LR & UC).
    destruct (reachable_built_in true c R0 CLabel) as (lab & BL & _ & UL & _ & _ & CI).
    destruct (store_facts c R) as [UB ONE]. assert (UL' := UB CLabel).
    assert (BI : forall cc y, concrete_concept_id cfg (c_snap c) delta_default cc = Ok (Some y) -> is_built_in (c_snap c) y cc).
    { intros cc y0 X. destruct (reachable_built_in true c R0 cc) as (n0 & B' & _ & _ & _ & _ & CI').
      rewrite (concrete_id_plain _ _ _ F) in X. rewrite (concrete_id_plain _ _ _ fair0) in CI'.
      rewrite X in CI'. injection CI' as ->. exists n0. auto. }
    rewrite (concrete_id_plain cfg0 _ _ fair0) in CI. rewrite <- (concrete_id_plain cfg _ _ F) in CI.
    pose proof (nb_operators _ _ _ NB) as ON. pose proof (reachable_keyed _ _ R0) as HK.
    set (sym := saying (c_snap c) V).
    assert (SyW : forall u j, sym u j -> word u) by (intros u j [J _]; apply (nb_symbol _ _ _ NB _ _ J)).
    assert (SyS : forall u j, sym u j -> settled_symbol (c_snap c) j u) by (intros u j [J _]; exact (notebook_settled _ _ _ _ _ NB J)).
    assert (SyE : forall u j, sym u j -> exists z t, ends (c_snap c) j z t /\ sym t z) by (intros u j; exact (saying_ends _ _ _ NB EN u j)).
    assert (SyR : forall u j q, sym u j -> reduces (c_snap c) j q -> exists t, sym t q) by (intros u j q; exact (saying_reduces _ _ _ NB u j q)).
    assert (SyI : forall u j j', sym u j -> sym u j' -> j = j') by (intros u j j' [J _] [J' _]; exact (sym_same _ _ _ NB u j j' J J')).
    assert (SyN : forall u u' j, sym u j -> sym u' j -> u = u') by (intros u u' j [J _] [J' _]; exact (sym_name _ _ _ NB ONE u u' j J J')).
    assert (SyT : forall u j cc, sym u j -> built_in (c_snap c) j cc -> ~ In cc [CLet; CForget; CLabel; CReduction; CGreaterThan]).
    { intros u j cc J K. rewrite (saying_built _ _ _ _ _ Q J K). cbn. intuition discriminate. }
    assert (SyP : forall u j p, sym u j -> mentions (c_snap c) p j -> ~ pattern (c_snap c) p)
      by (intros u j p J; exact (ph_patterns _ _ Q _ _ _ (proj1 J) (saying_common _ _ _ _ J))).
    assert (SyC : forall u t j l, sym u j -> sym t l -> Checks.uncomposed (c_snap c) j l)
      by (intros u t j l J J' p; exact (ph_apart _ _ Q _ _ _ _ p (proj1 J) (proj1 J') (saying_common _ _ _ _ J) (saying_common _ _ _ _ J'))).
    assert (AsW : forall x, built_in (c_snap c) x CAssociativity -> sym (txt "assoc") x) by (intros x; exact (saying_assoc _ _ _ NB ONE UB x Q)).
    assert (Sw : sym w k) by exact (saying_of _ _ _ NB ONE _ _ Cw Jw).
    intros n t s0 y s' (kd & -> & Kd) G X. destruct td.
    - refine (proj1 (proj1 (Phrases.rows_evaluated cfg (c_snap c) fuel F N LC LR UL' lab CI BL BI ON HK sym SyW SyS SyE SyR SyI SyN SyT SyP SyC AsW
        _ (fun x r M => proj2 M) (fun x r => memory_words c V B ar x r NB) n) k _ _ _ _ _ G X)). exists w, kd. auto.
    - exact (proj1 (proj1 (Groups.told_evaluated cfg (c_snap c) fuel F N LC LR UL' lab CI BL BI ON HK sym SyW SyS SyE SyR SyI SyT SyP SyC AsW
        _ (fun x r M => proj2 M) (fun x r => memory_groups c V B ar x r NB) n) _ _ _ _ _ (ToldWord sym w k kd Sw Kd) G X)).
  Qed.
  Lemma unreduced c V B w k : notebook (c_snap c) V B -> In (w, k) V -> (forall u, ~ In (w, u) B) -> forall q, ~ reduces (c_snap c) k q.
  Proof. intros NB J Nw q R. destruct (nb_only _ _ _ NB _ _ _ J R) as (u & Ju & _). exact (Nw _ Ju). Qed.
  Lemma chain_leads c V B : notebook (c_snap c) V B -> (forall j t u, carries_label (c_snap c) j t -> carries_label (c_snap c) j u -> t = u) ->
    forall k l, clos_refl_trans nat (reduces (c_snap c)) k l -> forall u w, In (u, k) V -> In (w, l) V -> (forall v, ~ In (w, v) B) -> leads_to B u w.
  Proof.
    intros NB ONE k l P. apply clos_rt_rt1n in P. induction P as [k|k j l R _ IH]; intros u w Ju Jw Nw.
    - rewrite (sym_name _ _ _ NB ONE _ _ _ Ju Jw). apply LeadsHere, Nw.
    - destruct (nb_only _ _ _ NB _ _ _ Ju R) as (t & Jt & Kt). exact (LeadsOn B u t w Jt (IH _ _ Kt Jw Nw)).
  Qed.
  Lemma judged_run td c c1 V B w v ar z : reachable_with true (links_safe true) c -> notebook (c_snap c) V B -> inquiry (c_snap c) V -> phrasing (c_snap c) V ->
    ending (map fst V) B -> In (txt "->", ar) V -> built_in (c_snap c) ar CReduction -> asked cfg (c_snap c) fuel (memory td c V ar) c ->
    In w (map fst V) -> In v (map fst V) -> common B w -> run_command cfg fuel (line (Tell w v)) c = Ok (z, c1) ->
    (forall a, objection B w v a -> (exists e, z = Fail e /\ error_text e = a) /\ asked cfg (c_snap c) fuel (memory td c V ar) c1) /\
    ((forall u, ~ In (w, u) B) -> ~ leads_to B v w -> z = Val []) /\
    (forall u, w = v -> In (w, u) B -> z = Val [] /\ c_cache c1 = empty_cache /\ exists k y m, In (w, k) V /\
       pending c1 = [(Committed k, DReduce (Committed k) (Remove y))] /\ read_concept cfg (c_snap c) delta_default (Committed k) = Ok m /\ m_reduction m = Some y).
  Proof.
    intros R NB Q QP EN Ja Ka H Jw Jv Cw E. pose proof (reachable_without _ _ _ R) as R0. pose proof (reachable_ready _ _ R0) as RD.
    apply in_map_iff in Jw. destruct Jw as ([w' k] & <- & Jw). apply in_map_iff in Jv. destruct Jv as ([v' l] & <- & Jv). cbn [fst] in *.
    pose proof (sane_numbers _ (ready_sane _ RD)) as N. destruct (links_agree_reachable true c R) as (LC & LR & UC).
    destruct (reachable_built_in true c R0 CLabel) as (lab & BL & _ & UL & _ & _ & CI).
    destruct (store_facts c R) as [UB ONE]. assert (UL' := UB CLabel).
    assert (BI : forall cc y, concrete_concept_id cfg (c_snap c) delta_default cc = Ok (Some y) -> is_built_in (c_snap c) y cc).
    { intros cc y0 X. destruct (reachable_built_in true c R0 cc) as (n0 & B' & _ & _ & _ & _ & CI').
      rewrite (concrete_id_plain _ _ _ F) in X. rewrite (concrete_id_plain _ _ _ fair0) in CI'.
      rewrite X in CI'. injection CI' as ->. exists n0. auto. }
    rewrite (concrete_id_plain cfg0 _ _ fair0) in CI. rewrite <- (concrete_id_plain cfg _ _ F) in CI.
    pose proof (nb_operators _ _ _ NB) as ON.
    destruct (nb_let _ _ _ NB) as (nl & Jl & Bl).
    assert (SS : forall u j, In (u, j) V -> settled_symbol (c_snap c) j u) by (intros u j; exact (notebook_settled _ _ _ _ _ NB)).
    assert (MM : forall u j, In (u, j) V -> means (c_snap c) u j) by (intros u j J; apply (nb_symbol _ _ _ NB _ _ J)).
    destruct (declaration_run cfg (c_snap c) fuel F N LC LR UL' lab CI BL (memory td c V ar) nl ar k l w' v' Bl Ka (SS _ _ Jl) (SS _ _ Ja) (SS _ _ Jw) (SS _ _ Jv)
      (MM _ _ Jl) (MM _ _ Ja) (MM _ _ Jw) (MM _ _ Jv) (proj1 (inquiry_arrow _ _ _ NB ar v' l Q Ka Jv)) (word_benign td c V B ar w' k R NB QP EN Cw Jw)
      (arrow_benign td c V B ar R NB Q EN Ja Ka) c z c1 H E) as (ta & tb & c2 & x & H2 & P2 & Oa & La & Lb & X & ->).
    destruct (sym_ends _ _ _ NB EN _ _ Jw) as (e & t & En & _).
    assert (WE : w' = v' <-> k = l).
    { split; [intros ->; exact (sym_same _ _ _ NB _ _ _ Jw Jv)|intros ->; exact (sym_name _ _ _ NB ONE _ _ _ Jw Jv)]. }
    assert (Pn : pinned c2 = false) by (rewrite P2; exact (reachable_unpinned _ _ R0)).
    destruct (declaration_judged cfg (c_snap c) fuel F N LC LR UL' lab CI BL BI ON (memory td c V ar) k l w' v' ta tb e t c2 x c1 En WE (SS _ _ Jw) Oa La Lb Pn H2 X)
      as (D1 & D2 & D3 & D4 & D5). split; [|split].
    - intros a Ob. inversion Ob as [w v u Ju NE|w v Nu Lv NE|w Nu]; subst.
      + destruct (nb_book _ _ _ NB _ _ Ju) as (k' & q & Jk & Jq & Rd). rewrite (sym_same _ _ _ NB _ _ _ Jk Jw) in Rd.
        destruct (D1 ltac:(tauto) q u Rd (SS _ _ Jq)) as [-> H1]. split; [|exact H1]. eexists. split; [reflexivity|reflexivity].
      + destruct (notebook_path _ _ _ _ _ NB Lv _ Jv) as (e' & Je & Pe). rewrite (sym_same _ _ _ NB _ _ _ Je Jw) in Pe.
        destruct (D2 ltac:(tauto) (unreduced _ _ _ _ _ NB Jw Nu) Pe) as [-> H1]. split; [|exact H1]. eexists. split; reflexivity.
      + destruct (D4 ltac:(tauto) (unreduced _ _ _ _ _ NB Jw Nu)) as [-> H1]. split; [|exact H1]. eexists. split; reflexivity.
    - intros Nu NL. assert (NE : k <> l).
      { intros X'. apply NL. apply WE in X'. rewrite <- X'. apply LeadsHere, Nu. }
      rewrite (D3 NE (unreduced _ _ _ _ _ NB Jw Nu)); [reflexivity|]. intros P. exact (NL (chain_leads _ _ _ NB ONE _ _ P _ _ Jv Jw Nu)).
    - intros u EQ Ju. destruct (nb_book _ _ _ NB _ _ Ju) as (k' & q & Jk & _ & Rd). rewrite (sym_same _ _ _ NB _ _ _ Jk Jw) in Rd.
      destruct (D5 (proj1 WE EQ) q Rd) as (-> & CE & y & m & P1 & RM & MR). split; [reflexivity|]. split; [exact CE|]. exists k, y, m. auto.
  Qed.
  (** Commands that fail and record nothing. *)
  Lemma refused_next extra tx c c' a : reachable_with true (links_safe true) c -> asked cfg (c_snap c) fuel extra c -> execute cfg fuel tx c = Ok (a, c') ->
    (forall z c1, run_command cfg fuel tx c = Ok (z, c1) -> asked cfg (c_snap c) fuel extra c1) ->
    c_snap c' = c_snap c /\ reachable_with true (links_safe true) c' /\ asked cfg (c_snap c) fuel extra c'.
  Proof.
    intros R H E Z. pose proof (reachable_without _ _ _ R) as R0. pose proof (reachable_ready _ _ R0) as RD.
    destruct (execute_run cfg fuel _ c _ c' F RD E) as (z & c1 & E1 & _). destruct (Z _ _ E1) as (S1 & D1 & _ & G1).
    destruct (execute_quiet _ _ _ _ _ _ _ _ RD E E1) as (A1 & A2 & A3 & _); [unfold recorded; rewrite D1; reflexivity|].
    assert (R' : reachable_with true (links_safe true) c').
    { eapply (reach_with_execute true (links_safe true) cfg fuel _ c _ c1 _ c' F D R E1); [|exact E]. rewrite D1. intros id x []. }
    split; [exact A1|]. split; [exact R'|]. split; [exact A1|]. destruct H as (_ & D0 & _). split; [congruence|].
    split; [apply (reachable_ready true c' (reachable_without _ _ _ R'))|]. rewrite A3. exact G1.
  Qed.
  Lemma objected_next td c c' V B w v ar a b : reachable_with true (links_safe true) c -> notebook (c_snap c) V B -> inquiry (c_snap c) V -> phrasing (c_snap c) V ->
    ending (map fst V) B -> In (txt "->", ar) V -> built_in (c_snap c) ar CReduction -> asked cfg (c_snap c) fuel (memory td c V ar) c ->
    In w (map fst V) -> In v (map fst V) -> common B w -> objection B w v b -> execute cfg fuel (line (Object w v)) c = Ok (a, c') ->
    a = b /\ c_snap c' = c_snap c /\ reachable_with true (links_safe true) c' /\ asked cfg (c_snap c) fuel (memory td c V ar) c'.
  Proof.
    intros R NB Q QP EN Ja Ka H Jw Jv Cw Ob E.
    assert (Z : forall z c1, run_command cfg fuel (line (Object w v)) c = Ok (z, c1) ->
      (exists e, z = Fail e /\ error_text e = b) /\ asked cfg (c_snap c) fuel (memory td c V ar) c1).
    { intros z c1 E1. exact (proj1 (judged_run td c c1 V B w v ar z R NB Q QP EN Ja Ka H Jw Jv Cw E1) _ Ob). }
    split; [|exact (refused_next _ _ _ _ _ R H E (fun z c1 E1 => proj2 (Z z c1 E1)))].
    destruct (execute_run cfg fuel _ c _ c' F (reachable_ready _ _ (reachable_without _ _ _ R)) E) as (z & c1 & E1 & _ & An & _).
    destruct (Z _ _ E1) as ((e & -> & <-) & _). exact An.
  Qed.
  Lemma accepted_next td c c' V B w v ar a : reachable_with true (links_safe true) c -> notebook (c_snap c) V B -> inquiry (c_snap c) V -> phrasing (c_snap c) V ->
    ending (map fst V) B -> In (txt "->", ar) V -> built_in (c_snap c) ar CReduction -> asked cfg (c_snap c) fuel (memory td c V ar) c ->
    In w (map fst V) -> In v (map fst V) -> common B w -> (forall u, ~ In (w, u) B) -> ~ leads_to B v w -> execute cfg fuel (line (Tell w v)) c = Ok (a, c') -> a = [].
  Proof.
    intros R NB Q QP EN Ja Ka H Jw Jv Cw Nu NL E.
    destruct (execute_run cfg fuel _ c _ c' F (reachable_ready _ _ (reachable_without _ _ _ R)) E) as (z & c1 & E1 & _ & An & _).
    rewrite (proj1 (proj2 (judged_run td c c1 V B w v ar z R NB Q QP EN Ja Ka H Jw Jv Cw E1)) Nu NL) in An. exact An.
  Qed.
  Lemma dropped_next short td c c' V B w u ar a : reachable_with true (links_safe true) c -> notebook (c_snap c) V B ->
    (short = false -> inquiry (c_snap c) V /\ phrasing (c_snap c) V /\ common B w) ->
    ending (map fst V) B -> In (txt "->", ar) V -> built_in (c_snap c) ar CReduction -> asked cfg (c_snap c) fuel (memory td c V ar) c ->
    In w (map fst V) -> In (w, u) B -> execute cfg fuel (line (Drop short w)) c = Ok (a, c') -> a = [] /\
    reachable_with true (links_safe true) c' /\ c_cache c' = empty_cache /\
    (forall u, (forall n, ~ found_under (c_snap c) u n) -> forall n, ~ found_under (c_snap c') u n) /\
    notebook (c_snap c') V (without w B) /\ (inquiry (c_snap c) V -> inquiry (c_snap c') V) /\ (phrasing (c_snap c) V -> phrasing (c_snap c') V) /\
    (unbracketed (c_snap c) V -> unbracketed (c_snap c') V) /\ (uninvolved (c_snap c) V -> uninvolved (c_snap c') V).
  Proof.
    intros R NB Qs EN Ja Ka H Jw Ju E. pose proof (reachable_without _ _ _ R) as R0. pose proof (reachable_ready _ _ R0) as RD.
    destruct (execute_run cfg fuel _ c _ c' F RD E) as (z & c1 & E1 & _ & An & _). destruct short.
    - change (line (Drop true w)) with (line (Forget w)) in *. enough (a = []) as -> by (split; [reflexivity|exact (forgot_next c c' V B w R NB Jw E)]).
      apply in_map_iff in Jw. destruct Jw as ([w' k] & <- & Jw). cbn [fst] in *.
      pose proof (sane_numbers _ (ready_sane _ RD)) as N. destruct (links_agree_reachable true c R) as (LC & LR & UC).
      destruct (reachable_built_in true c R0 CLabel) as (lab & BL & _ & UL & _ & _ & CI).
      destruct (store_facts c R) as [UB ONE].
      rewrite (concrete_id_plain cfg0 _ _ fair0) in CI. rewrite <- (concrete_id_plain cfg _ _ F) in CI.
      destruct (nb_forget _ _ _ NB) as (fg & Jf & Bf & Uf).
      destruct (nb_book _ _ _ NB _ _ Ju) as (k' & q & Jk & _ & Rd). rewrite (sym_same _ _ _ NB _ _ _ Jk Jw) in Rd.
      assert (Z : z = Val []).
      { refine (proj2 (forgetting_run cfg (c_snap c) fuel F N LC LR (UB CLabel) lab CI BL (memory td c V ar) fg k w' c z c1 Bf (notebook_settled _ _ _ _ _ NB Jf) (notebook_settled _ _ _ _ _ NB Jw)
          _ _ (fun p => Uf p k) (reachable_unpinned _ _ R0) H E1) q Rd); [apply (nb_symbol _ _ _ NB _ _ Jf)|apply (nb_symbol _ _ _ NB _ _ Jw)]. }
      subst z. exact An.
    - destruct (Qs eq_refl) as (Q & QP & Cw). change (line (Drop false w)) with (line (Tell w w)) in *.
      destruct (proj2 (proj2 (judged_run td c c1 V B w w ar z R NB Q QP EN Ja Ka H Jw Jw Cw E1)) u eq_refl Ju) as (-> & CE & k & y & m & Jk & P1 & RM & MR).
      subst a. split; [reflexivity|].
      destruct (removal_trace cfg fuel F c R _ [] k y m c1 c' E E1 P1 RM MR) as (s2 & RA & CY & AD & X1 & X2).
      exact (removed_next _ c c' V B w k y s2 c1 R NB Jk E E1 P1 RA CY AD X1 X2 CE).
  Qed.
  Lemma idle_next extra c c' V B w a : reachable_with true (links_safe true) c -> notebook (c_snap c) V B -> asked cfg (c_snap c) fuel extra c ->
    In w (map fst V) -> (forall u, ~ In (w, u) B) -> execute cfg fuel (line (Idle w)) c = Ok (a, c') ->
    a = (txt "That reduction rule for " ++ w ++ txt " already exists.")%list /\ c_snap c' = c_snap c /\ reachable_with true (links_safe true) c' /\ asked cfg (c_snap c) fuel extra c'.
  Proof.
    intros R NB H Jw Nu E. pose proof (reachable_without _ _ _ R) as R0. pose proof (reachable_ready _ _ R0) as RD.
    apply in_map_iff in Jw. destruct Jw as ([w' k] & <- & Jw). cbn [fst] in *.
    pose proof (sane_numbers _ (ready_sane _ RD)) as N. destruct (links_agree_reachable true c R) as (LC & LR & UC).
    destruct (reachable_built_in true c R0 CLabel) as (lab & BL & _ & UL & _ & _ & CI).
    destruct (store_facts c R) as [UB ONE].
    rewrite (concrete_id_plain cfg0 _ _ fair0) in CI. rewrite <- (concrete_id_plain cfg _ _ F) in CI.
    destruct (nb_forget _ _ _ NB) as (fg & Jf & Bf & Uf).
    assert (Z : forall z c1, run_command cfg fuel (line (Idle w')) c = Ok (z, c1) -> z = Fail (RedundantReduction w') /\ asked cfg (c_snap c) fuel extra c1).
    { intros z c1 E1. refine (proj1 (forgetting_run cfg (c_snap c) fuel F N LC LR (UB CLabel) lab CI BL extra fg k w' c z c1 Bf (notebook_settled _ _ _ _ _ NB Jf) (notebook_settled _ _ _ _ _ NB Jw)
        _ _ (fun p => Uf p k) (reachable_unpinned _ _ R0) H E1) (unreduced _ _ _ _ _ NB Jw Nu)); [apply (nb_symbol _ _ _ NB _ _ Jf)|apply (nb_symbol _ _ _ NB _ _ Jw)]. }
    split; [|exact (refused_next _ _ _ _ _ R H E (fun z c1 E1 => proj2 (Z z c1 E1)))].
    destruct (execute_run cfg fuel _ c _ c' F RD E) as (z & c1 & E1 & _ & An & _). destruct (Z _ _ E1) as (-> & _). exact An.
  Qed.
  Lemma named_next extra c c' V B w a : reachable_with true (links_safe true) c -> notebook (c_snap c) V B -> inquiry (c_snap c) V ->
    asked cfg (c_snap c) fuel extra c -> In w (map fst V) -> execute cfg fuel (line (NameOf w)) c = Ok (a, c') ->
    a = quoted w /\ c_snap c' = c_snap c /\ reachable_with true (links_safe true) c' /\ asked cfg (c_snap c) fuel extra c'.
  Proof.
    intros R NB Q H Jw E. pose proof (reachable_without _ _ _ R) as R0. pose proof (reachable_ready _ _ R0) as RD.
    apply in_map_iff in Jw. destruct Jw as ([w' k] & <- & Jw). cbn [fst] in *.
    pose proof (sane_numbers _ (ready_sane _ RD)) as N. destruct (links_agree_reachable true c R) as (LC & LR & UC).
    destruct (reachable_built_in true c R0 CLabel) as (lab & BL & _ & UL & _ & _ & CI).
    destruct (store_facts c R) as [UB ONE].
    rewrite (concrete_id_plain cfg0 _ _ fair0) in CI. rewrite <- (concrete_id_plain cfg _ _ F) in CI.
    destruct (iq_words _ _ Q (txt "label_of") CLabel) as (lb & Jl & Bl); [cbn; tauto|].
    destruct (nb_symbol _ _ _ NB _ _ Jl) as (Ml & _). destruct (nb_symbol _ _ _ NB _ _ Jw) as (Mw & Ca & _).
    assert (Z : forall z c1, run_command cfg fuel (line (NameOf w')) c = Ok (z, c1) -> z = Val (quoted w') /\ asked cfg (c_snap c) fuel extra c1).
    { intros z c1 E1. exact (naming_run cfg (c_snap c) fuel F N LC LR (UB CLabel) lab CI BL extra lb k w' c z c1 Bl (notebook_settled _ _ _ _ _ NB Jl) (notebook_settled _ _ _ _ _ NB Jw)
        Ml Mw Ca H E1). }
    split; [|exact (refused_next _ _ _ _ _ R H E (fun z c1 E1 => proj2 (Z z c1 E1)))].
    destruct (execute_run cfg fuel _ c _ c' F RD E) as (z & c1 & E1 & _ & An & _). destruct (Z _ _ E1) as (-> & _). exact An.
  Qed.

  Lemma asked_empty extra c : reachable_with true (links_safe true) c -> c_cache c = empty_cache -> asked cfg (c_snap c) fuel extra c.
  Proof.
    intros R K. split; [reflexivity|]. pose proof (reachable_ready _ _ (reachable_without _ _ _ R)) as RD. split; [apply RD|]. split; [apply RD|]. rewrite K. apply good_empty.
  Qed.
  (** What is known after the session is what was declared. *)
  Definition kept (c : ctx) (W : list text) (B : list (text * text)) (ns : list note) : Prop :=
    reachable_with true (links_safe true) c /\ ending (words_known W ns) (declared B ns) /\
    exists V, map fst V = words_known W ns /\ notebook (c_snap c) V (declared B ns).
  Theorem notes_answered td s0 W B ns : written s0 W B ns ->
    forall c c' V ar answers, reachable_with true (links_safe true) c -> In (txt "->", ar) V -> built_in (c_snap c) ar CReduction ->
    asked cfg (c_snap c) fuel (memory td c V ar) c -> notebook (c_snap c) V B -> ((exists n, In n ns /\ questioning n) -> inquiry (c_snap c) V) ->
    ((exists n, In n ns /\ expression n) -> phrasing (c_snap c) V) -> ((exists n, In n ns /\ plain n) -> unbracketed (c_snap c) V) -> ((exists n, In n ns /\ doubtful n) -> uninvolved (c_snap c) V) -> (td = true -> tidy ns = true) -> W = map fst V ->
    ending W B -> (forall u, (forall n, ~ found_under s0 u n) -> In u W \/ forall n, ~ found_under (c_snap c) u n) ->
    run_session cfg fuel (map line ns) c = Ok (answers, c') -> Forall2 silent ns answers -> replies td B ns answers /\ kept c' W B ns.
  Proof.
    induction 1 as [W B|W B w v ns (Ww & Uw & Kw) (Wv & Uv & Kv) Nw _ IH|W B w ns J _ IH|W B w ns J _ IH|W B w v z ns J J' Lw Lv NZ _ IH|W B ws ns L2 WS _ IH|W B p ns L2 WS _ IH|W B w v z ns J J' Lw Lv NZ Rw Rv _ IH|W B ws ns L2 WS _ IH|W B pl w v z z' ns J J' Lw Lv NE Rz Rz' RR _ IH|W B os ns Sz WS _ IH|W B w v b ns J J' Cw Ob _ IH|W B w ns J Nu _ IH|W B w v ns J J' Cw Nu NL _ IH|W B sh w u ns J Ju Cw _ IH|W B w ns J _ IH];
      intros c c' V ar answers R Ja Ka H NB Q QP QU QD TD EW EN UN E SI; cbn [map run_session] in E.
    - injection E as <- <-. split; [constructor|]. split; [exact R|]. cbn [words_known declared]. split; [exact EN|]. exists V. split; [symmetry; exact EW|exact NB].
    - apply obind_ok in E. destruct E as ([a c1] & E1 & E). apply obind_ok in E. destruct E as ([rs c2] & E2 & [= <- <-]).
      inversion SI as [|? ? ? ? Sa SI']; subst. cbn in Sa. subst a.
      destruct (told_next c c1 V B w v R NB) as (R1 & K1 & UN1 & NZ & x & y & NB1 & Q1 & Q2 & Q3 & Q4); [| |exact Nw|exact E1|].
      { split; [exact Ww|]. split; [exact Uw|]. destruct Kw as [K|K]; [left; exact K|exact (UN w K)]. }
      { split; [exact Wv|]. split; [exact Uv|]. destruct Kv as [K|K]; [left; exact K|exact (UN v K)]. }
      assert (Z : exists z, leads_to B v z).
      { assert (Kv2 : In v (map fst V) \/ forall n, ~ found_under (c_snap c) v n) by (destruct Kv as [K|K]; [left; exact K|exact (UN v K)]).
        destruct Kv2 as [K|K]; [exact (EN v K)|]. exists v. apply LeadsHere. intros u J. destruct (nb_book _ _ _ NB _ _ J) as (k & l & J1 & _).
        destruct (nb_symbol _ _ _ NB _ _ J1) as ((_ & _ & Hf & _) & _). exact (K _ Hf). }
      destruct Z as (z & Z). destruct (nb_arrow _ _ _ NB1) as (ar' & Ja' & Ka').
      enough (G : _ /\ _) by (destruct G as [G KP]; split; [constructor; exact G|exact KP]).
      apply (IH c1 c2 ((w, x) :: (v, y) :: V) ar' rs R1 Ja' Ka' (asked_empty _ _ R1 K1) NB1);
        [| | | |exact TD|reflexivity|exact (ending_told B w v z _ EN Z (NZ z Z))| |exact E2|exact SI'].
      + intros (us & J & X). apply Q1, Q. exists us. split; [right; exact J|exact X].
      + intros (us & J & X). apply Q2, QP. exists us. split; [right; exact J|exact X].
      + intros (us & J & X). apply Q3, QU. exists us. split; [right; exact J|exact X].
      + intros (us & J & X). apply Q4, QD. exists us. split; [right; exact J|exact X].
      + intros u N. destruct (UN u N) as [J|J]; [left; right; right; exact J|].
        destruct (list_eq_dec BinNat.N.eq_dec u w) as [->|Nuw]; [left; left; reflexivity|].
        destruct (list_eq_dec BinNat.N.eq_dec u v) as [->|Nuv]; [left; right; left; reflexivity|].
        right. exact (UN1 u J Nuw Nuv).
    - apply obind_ok in E. destruct E as ([a c1] & E1 & E). apply obind_ok in E. destruct E as ([rs c2] & E2 & [= <- <-]).
      inversion SI as [|? ? ? ? Sa SI']; subst. cbn in Sa. subst a. destruct (forgot_next c c1 V B w R NB J E1) as (R1 & K1 & UN1 & NB1 & Q1 & Q2 & Q3 & Q4).
      destruct (nb_arrow _ _ _ NB1) as (ar' & Ja' & Ka').
      enough (G : _ /\ _) by (destruct G as [G KP]; split; [constructor; exact G|exact KP]).
      apply (IH c1 c2 V ar' rs R1 Ja' Ka' (asked_empty _ _ R1 K1) NB1); [| | | |exact TD|reflexivity|exact (ending_forgot _ _ _ EN)| |exact E2|exact SI'].
      + intros (us & J' & X). apply Q1, Q. exists us. split; [right; exact J'|exact X].
      + intros (us & J' & X). apply Q2, QP. exists us. split; [right; exact J'|exact X].
      + intros (us & J' & X). apply Q3, QU. exists us. split; [right; exact J'|exact X].
      + intros (us & J' & X). apply Q4, QD. exists us. split; [right; exact J'|exact X].
      + intros u N. destruct (UN u N) as [Ju|Ju]; [left; exact Ju|right; exact (UN1 u Ju)].
    - apply obind_ok in E. destruct E as ([a c1] & E1 & E). apply obind_ok in E. destruct E as ([rs c2] & E2 & [= <- <-]).
      inversion SI as [|? ? ? ? _ SI']; subst.
      destruct (EN w J) as (z & LT).
      destruct (asked_next _ c c1 V B w z a R NB H J LT E1) as (-> & S1 & R1 & H1). enough (G : _ /\ _) by (destruct G as [G KP]; split; [constructor; [exact LT|exact G]|exact KP]).
      apply (IH c1 c2 V ar rs R1 Ja); [rewrite S1; exact Ka|unfold memory in *; rewrite S1; exact H1|rewrite S1; exact NB| | | | |exact TD|reflexivity|exact EN|rewrite S1; exact UN|exact E2|exact SI'].
      + rewrite S1. intros (us & Jp & X0). apply Q. exists us. split; [right; exact Jp|exact X0].
      + rewrite S1. intros (us & Jp & X0). apply QP. exists us. split; [right; exact Jp|exact X0].
      + rewrite S1. intros (us & Jp & X0). apply QU. exists us. split; [right; exact Jp|exact X0].
      + rewrite S1. intros (us & Jp & X0). apply QD. exists us. split; [right; exact Jp|exact X0].
    - apply obind_ok in E. destruct E as ([a c1] & E1 & E). apply obind_ok in E. destruct E as ([rs c2] & E2 & [= <- <-]).
      inversion SI as [|? ? ? ? _ SI']; subst.
      assert (Qc : inquiry (c_snap c) V) by (apply Q; exists (Check w v); split; [left; reflexivity|exact I]).
      destruct (leads_away _ _ _ Lw) as (m & Aw). destruct (leads_away _ _ _ Lv) as (n & Av).
      destruct (agreed_next false td c c1 V B w v m n z ar a R NB Qc EN Ja Ka H J J' Aw Av NZ (fun X => False_ind _ (Bool.diff_false_true X)) E1) as (-> & S1 & R1 & H1). enough (G : _ /\ _) by (destruct G as [G KP]; split; [apply (RepliesCheck td B w v m n z); [exact Aw|exact Av|exact G]|exact KP]).
      apply (IH c1 c2 V ar rs R1 Ja); [rewrite S1; exact Ka|unfold memory in *; rewrite S1; exact H1|rewrite S1; exact NB| | | | |exact TD|reflexivity|exact EN|rewrite S1; exact UN|exact E2|exact SI'].
      + rewrite S1. intros (us & Jp & X0). apply Q. exists us. split; [right; exact Jp|exact X0].
      + rewrite S1. intros (us & Jp & X0). apply QP. exists us. split; [right; exact Jp|exact X0].
      + rewrite S1. intros (us & Jp & X0). apply QU. exists us. split; [right; exact Jp|exact X0].
      + rewrite S1. intros (us & Jp & X0). apply QD. exists us. split; [right; exact Jp|exact X0].
    - apply obind_ok in E. destruct E as ([a c1] & E1 & E). apply obind_ok in E. destruct E as ([rs c2] & E2 & [= <- <-]).
      inversion SI as [|? ? ? ? _ SI']; subst.
      assert (Qc : phrasing (c_snap c) V) by (apply QP; exists (Phrase ws); split; [left; reflexivity|exact I]).
      assert (Z : (exists vs, Forall2 (leads_to B) ws vs /\ (if td then a else bare a) = joined vs) /\ c_snap c1 = c_snap c /\
        reachable_with true (links_safe true) c1 /\ asked cfg (c_snap c) fuel (memory td c V ar) c1).
      { destruct td; [exact (phrased_next false c c1 V B ws ar a R NB Qc EN Ja Ka H L2 WS (fun X => False_ind _ (Bool.diff_false_true X)) E1)|].
        assert (RW : words_of (row ws) = ws).
        { clear - L2. assert (X : ws <> []) by (destruct ws; cbn in L2; [lia|discriminate]). clear L2. induction ws as [|w [|v ws] IH]; [congruence|reflexivity|].
          change (row (w :: v :: ws)) with (Both (Word w) (row (v :: ws))). cbn [words_of app]. rewrite IH by discriminate. reflexivity. }
        assert (CR : compound (row ws)) by (destruct ws as [|? [|? ?]]; cbn in L2; try lia; exact I).
        exact (grouped_next (spelled (row ws)) c c1 V B ws ar a R NB Qc EN Ja Ka H (or_introl (ex_intro _ (row ws) (conj CR (conj eq_refl (eq_sym RW))))) WS E1). }
      destruct Z as ((vs & LS & X) & S1 & R1 & H1). enough (G : _ /\ _) by (destruct G as [G KP]; split; [exact (RepliesPhrase td B ws vs a _ _ LS X G)|exact KP]).
      apply (IH c1 c2 V ar rs R1 Ja); [rewrite S1; exact Ka|unfold memory in *; rewrite S1; exact H1|rewrite S1; exact NB| | | | |exact TD|reflexivity|exact EN|rewrite S1; exact UN|exact E2|exact SI'].
      + rewrite S1. intros (us & Jp & X0). apply Q. exists us. split; [right; exact Jp|exact X0].
      + rewrite S1. intros (us & Jp & X0). apply QP. exists us. split; [right; exact Jp|exact X0].
      + rewrite S1. intros (us & Jp & X0). apply QU. exists us. split; [right; exact Jp|exact X0].
      + rewrite S1. intros (us & Jp & X0). apply QD. exists us. split; [right; exact Jp|exact X0].
    - destruct td; [discriminate (TD eq_refl)|].
      apply obind_ok in E. destruct E as ([a c1] & E1 & E). apply obind_ok in E. destruct E as ([rs c2] & E2 & [= <- <-]).
      inversion SI as [|? ? ? ? _ SI']; subst.
      assert (Qc : phrasing (c_snap c) V) by (apply QP; exists (Group p); split; [left; reflexivity|exact I]).
      destruct (grouped_next (spelled p) c c1 V B (words_of p) ar a R NB Qc EN Ja Ka H (or_introl (ex_intro _ p (conj L2 (conj eq_refl eq_refl)))) WS E1) as ((vs & LS & X) & S1 & R1 & H1).
      enough (G : _ /\ _) by (destruct G as [G KP]; split; [exact (RepliesGroup false B p vs a _ _ LS X G)|exact KP]).
      apply (IH c1 c2 V ar rs R1 Ja); [rewrite S1; exact Ka|unfold memory in *; rewrite S1; exact H1|rewrite S1; exact NB| | | | |discriminate|reflexivity|exact EN|rewrite S1; exact UN|exact E2|exact SI'].
      + rewrite S1. intros (us & Jp & X0). apply Q. exists us. split; [right; exact Jp|exact X0].
      + rewrite S1. intros (us & Jp & X0). apply QP. exists us. split; [right; exact Jp|exact X0].
      + rewrite S1. intros (us & Jp & X0). apply QU. exists us. split; [right; exact Jp|exact X0].
      + rewrite S1. intros (us & Jp & X0). apply QD. exists us. split; [right; exact Jp|exact X0].
    - apply obind_ok in E. destruct E as ([a c1] & E1 & E). apply obind_ok in E. destruct E as ([rs c2] & E2 & [= <- <-]).
      inversion SI as [|? ? ? ? _ SI']; subst.
      assert (Qc : inquiry (c_snap c) V) by (apply Q; exists (PlainCheck w v); split; [left; reflexivity|exact I]).
      destruct (leads_away _ _ _ Lw) as (m & Aw). destruct (leads_away _ _ _ Lv) as (n & Av).
      destruct (agreed_next true td c c1 V B w v m n z ar a R NB Qc EN Ja Ka H J J' Aw Av NZ (fun _ => conj (QU (ex_intro _ (PlainCheck w v) (conj (or_introl eq_refl) I))) (conj Rw Rv)) E1) as (-> & S1 & R1 & H1). enough (G : _ /\ _) by (destruct G as [G KP]; split; [apply (RepliesPlainCheck td B w v m n z); [exact Aw|exact Av|exact G]|exact KP]).
      apply (IH c1 c2 V ar rs R1 Ja); [rewrite S1; exact Ka|unfold memory in *; rewrite S1; exact H1|rewrite S1; exact NB| | | | |exact TD|reflexivity|exact EN|rewrite S1; exact UN|exact E2|exact SI'].
      + rewrite S1. intros (us & Jp & X0). apply Q. exists us. split; [right; exact Jp|exact X0].
      + rewrite S1. intros (us & Jp & X0). apply QP. exists us. split; [right; exact Jp|exact X0].
      + rewrite S1. intros (us & Jp & X0). apply QU. exists us. split; [right; exact Jp|exact X0].
      + rewrite S1. intros (us & Jp & X0). apply QD. exists us. split; [right; exact Jp|exact X0].
    - apply obind_ok in E. destruct E as ([a c1] & E1 & E). apply obind_ok in E. destruct E as ([rs c2] & E2 & [= <- <-]).
      inversion SI as [|? ? ? ? _ SI']; subst.
      assert (Qc : phrasing (c_snap c) V) by (apply QP; exists (PlainPhrase ws); split; [left; reflexivity|exact I]).
      assert (Uc : unbracketed (c_snap c) V) by (apply QU; exists (PlainPhrase ws); split; [left; reflexivity|exact I]).
      assert (Z : (exists vs, Forall2 (leads_to B) ws vs /\ (if td then a else bare a) = joined vs) /\ c_snap c1 = c_snap c /\
        reachable_with true (links_safe true) c1 /\ asked cfg (c_snap c) fuel (memory td c V ar) c1).
      { destruct td; [exact (phrased_next true c c1 V B ws ar a R NB Qc EN Ja Ka H L2 WS (fun _ => Uc) E1)|].
        exact (grouped_next (joined ws) c c1 V B ws ar a R NB Qc EN Ja Ka H (or_intror (conj L2 (conj eq_refl Uc))) WS E1). }
      destruct Z as ((vs & LS & X) & S1 & R1 & H1). enough (G : _ /\ _) by (destruct G as [G KP]; split; [exact (RepliesPlainPhrase td B ws vs a _ _ LS X G)|exact KP]).
      apply (IH c1 c2 V ar rs R1 Ja); [rewrite S1; exact Ka|unfold memory in *; rewrite S1; exact H1|rewrite S1; exact NB| | | | |exact TD|reflexivity|exact EN|rewrite S1; exact UN|exact E2|exact SI'].
      + rewrite S1. intros (us & Jp & X0). apply Q. exists us. split; [right; exact Jp|exact X0].
      + rewrite S1. intros (us & Jp & X0). apply QP. exists us. split; [right; exact Jp|exact X0].
      + rewrite S1. intros (us & Jp & X0). apply QU. exists us. split; [right; exact Jp|exact X0].
      + rewrite S1. intros (us & Jp & X0). apply QD. exists us. split; [right; exact Jp|exact X0].
    - apply obind_ok in E. destruct E as ([a c1] & E1 & E). apply obind_ok in E. destruct E as ([rs c2] & E2 & [= <- <-]).
      inversion SI as [|? ? ? ? _ SI']; subst.
      assert (Qc : inquiry (c_snap c) V) by (apply Q; exists (Doubt pl w v); split; [left; reflexivity|exact I]).
      assert (Qd : uninvolved (c_snap c) V) by (apply QD; exists (Doubt pl w v); split; [left; reflexivity|exact I]).
      assert (PL : pl = true -> unbracketed (c_snap c) V /\ ~ In w reserved /\ ~ In v reserved).
      { intros ->. split; [|exact (RR eq_refl)]. apply QU. exists (Doubt true w v). split; [left; reflexivity|exact I]. }
      destruct (doubted_next pl td c c1 V B w v z z' ar a R NB Qc Qd EN Ja Ka H J J' Lw Lv NE Rz Rz' PL E1) as (-> & S1 & R1 & H1).
      enough (G : _ /\ _) by (destruct G as [G KP]; split; [apply (RepliesDoubt td B pl w v z z'); [exact Lw|exact Lv|exact G]|exact KP]).
      apply (IH c1 c2 V ar rs R1 Ja); [rewrite S1; exact Ka|unfold memory in *; rewrite S1; exact H1|rewrite S1; exact NB| | | | |exact TD|reflexivity|exact EN|rewrite S1; exact UN|exact E2|exact SI'].
      + rewrite S1. intros (us & Jp & X0). apply Q. exists us. split; [right; exact Jp|exact X0].
      + rewrite S1. intros (us & Jp & X0). apply QP. exists us. split; [right; exact Jp|exact X0].
      + rewrite S1. intros (us & Jp & X0). apply QU. exists us. split; [right; exact Jp|exact X0].
      + rewrite S1. intros (us & Jp & X0). apply QD. exists us. split; [right; exact Jp|exact X0].
    - destruct td; [discriminate (TD eq_refl)|].
      apply obind_ok in E. destruct E as ([a c1] & E1 & E). apply obind_ok in E. destruct E as ([rs c2] & E2 & [= <- <-]).
      inversion SI as [|? ? ? ? _ SI']; subst.
      assert (Qc : phrasing (c_snap c) V) by (apply QP; exists (Outline os); split; [left; reflexivity|exact I]).
      assert (Uc : unbracketed (c_snap c) V) by (apply QU; exists (Outline os); split; [left; reflexivity|exact I]).
      destruct (expressed_next (outlined os) (unambiguous (Several os)) c c1 V B (all_terms os) ar a R NB Qc EN Ja Ka H) as (An & S1 & R1 & H1);
        [right; right; exists os; auto|exact WS|exact E1|].
      enough (G : replies false B ns rs /\ kept c2 (map fst V) B ns).
      { destruct G as [G KP]; split; [|exact KP]. destruct An as [(vs & LS & X & OK)|[-> OK]]; [exact (RepliesOutline false B os vs a _ _ OK LS X G)|exact (RepliesRefused false B os _ _ OK G)]. }
      apply (IH c1 c2 V ar rs R1 Ja); [rewrite S1; exact Ka|unfold memory in *; rewrite S1; exact H1|rewrite S1; exact NB| | | | |discriminate|reflexivity|exact EN|rewrite S1; exact UN|exact E2|exact SI'].
      + rewrite S1. intros (us & Jp & X0). apply Q. exists us. split; [right; exact Jp|exact X0].
      + rewrite S1. intros (us & Jp & X0). apply QP. exists us. split; [right; exact Jp|exact X0].
      + rewrite S1. intros (us & Jp & X0). apply QU. exists us. split; [right; exact Jp|exact X0].
      + rewrite S1. intros (us & Jp & X0). apply QD. exists us. split; [right; exact Jp|exact X0].
    - apply obind_ok in E. destruct E as ([a c1] & E1 & E). apply obind_ok in E. destruct E as ([rs c2] & E2 & [= <- <-]).
      inversion SI as [|? ? ? ? _ SI']; subst.
      assert (Qc : inquiry (c_snap c) V) by (apply Q; exists (Object w v); split; [left; reflexivity|exact I]).
      assert (Qp : phrasing (c_snap c) V) by (apply QP; exists (Object w v); split; [left; reflexivity|exact I]).
      destruct (objected_next td c c1 V B w v ar a b R NB Qc Qp EN Ja Ka H J J' Cw Ob E1) as (-> & S1 & R1 & H1).
      enough (G : _ /\ _) by (destruct G as [G KP]; split; [exact (RepliesObject td B w v b _ _ Ob G)|exact KP]).
      apply (IH c1 c2 V ar rs R1 Ja); [rewrite S1; exact Ka|unfold memory in *; rewrite S1; exact H1|rewrite S1; exact NB| | | | |exact TD|reflexivity|exact EN|rewrite S1; exact UN|exact E2|exact SI'].
      + rewrite S1. intros (us & Jp & X0). apply Q. exists us. split; [right; exact Jp|exact X0].
      + rewrite S1. intros (us & Jp & X0). apply QP. exists us. split; [right; exact Jp|exact X0].
      + rewrite S1. intros (us & Jp & X0). apply QU. exists us. split; [right; exact Jp|exact X0].
      + rewrite S1. intros (us & Jp & X0). apply QD. exists us. split; [right; exact Jp|exact X0].
    - apply obind_ok in E. destruct E as ([a c1] & E1 & E). apply obind_ok in E. destruct E as ([rs c2] & E2 & [= <- <-]).
      inversion SI as [|? ? ? ? _ SI']; subst.
      destruct (idle_next _ c c1 V B w a R NB H J Nu E1) as (-> & S1 & R1 & H1).
      enough (G : _ /\ _) by (destruct G as [G KP]; split; [exact (RepliesIdle td B w _ _ G)|exact KP]).
      apply (IH c1 c2 V ar rs R1 Ja); [rewrite S1; exact Ka|unfold memory in *; rewrite S1; exact H1|rewrite S1; exact NB| | | | |exact TD|reflexivity|exact EN|rewrite S1; exact UN|exact E2|exact SI'].
      + rewrite S1. intros (us & Jp & X0). apply Q. exists us. split; [right; exact Jp|exact X0].
      + rewrite S1. intros (us & Jp & X0). apply QP. exists us. split; [right; exact Jp|exact X0].
      + rewrite S1. intros (us & Jp & X0). apply QU. exists us. split; [right; exact Jp|exact X0].
      + rewrite S1. intros (us & Jp & X0). apply QD. exists us. split; [right; exact Jp|exact X0].
    - apply obind_ok in E. destruct E as ([a c1] & E1 & E). apply obind_ok in E. destruct E as ([rs c2] & E2 & [= <- <-]).
      inversion SI as [|? ? ? ? _ SI']; subst.
      assert (Qc : inquiry (c_snap c) V) by (apply Q; exists (Accept w v); split; [left; reflexivity|exact I]).
      assert (Qp : phrasing (c_snap c) V) by (apply QP; exists (Accept w v); split; [left; reflexivity|exact I]).
      assert (US : forall u, In u (map fst V) -> usable (c_snap c) (map fst V) u).
      { intros u Ju. apply in_map_iff in Ju. destruct Ju as ([u' k] & <- & Ju). cbn [fst]. destruct (nb_symbol _ _ _ NB _ _ Ju) as ((X1 & X2 & _) & _).
        split; [exact X1|]. split; [exact X2|]. left. apply in_map_iff. exists (u', k). auto. }
      pose proof (accepted_next td c c1 V B w v ar a R NB Qc Qp EN Ja Ka H J J' Cw Nu NL E1) as ->.
      destruct (told_next c c1 V B w v R NB (US _ J) (US _ J') Nu E1) as (R1 & K1 & UN1 & NZ & x & y & NB1 & Q1 & Q2 & Q3 & Q4).
      destruct (EN v J') as (z & Z). destruct (nb_arrow _ _ _ NB1) as (ar' & Ja' & Ka').
      enough (G : _ /\ _) by (destruct G as [G KP]; split; [constructor; exact G|exact KP]).
      apply (IH c1 c2 ((w, x) :: (v, y) :: V) ar' rs R1 Ja' Ka' (asked_empty _ _ R1 K1) NB1);
        [| | | |exact TD|reflexivity|exact (ending_told B w v z _ EN Z (NZ z Z))| |exact E2|exact SI'].
      + intros (us & Jp & X). apply Q1, Q. exists us. split; [right; exact Jp|exact X].
      + intros (us & Jp & X). apply Q2, QP. exists us. split; [right; exact Jp|exact X].
      + intros (us & Jp & X). apply Q3, QU. exists us. split; [right; exact Jp|exact X].
      + intros (us & Jp & X). apply Q4, QD. exists us. split; [right; exact Jp|exact X].
      + intros u N. destruct (UN u N) as [Ju|Ju]; [left; right; right; exact Ju|].
        destruct (list_eq_dec BinNat.N.eq_dec u w) as [->|Nuw]; [left; left; reflexivity|].
        destruct (list_eq_dec BinNat.N.eq_dec u v) as [->|Nuv]; [left; right; left; reflexivity|].
        right. exact (UN1 u Ju Nuw Nuv).
    - apply obind_ok in E. destruct E as ([a c1] & E1 & E). apply obind_ok in E. destruct E as ([rs c2] & E2 & [= <- <-]).
      inversion SI as [|? ? ? ? _ SI']; subst.
      assert (Qs : sh = false -> inquiry (c_snap c) V /\ phrasing (c_snap c) V /\ common B w).
      { intros ->. split; [apply Q|split; [apply QP|exact (Cw eq_refl)]]; exists (Drop false w); (split; [left; reflexivity|exact I]). }
      destruct (dropped_next sh td c c1 V B w u ar a R NB Qs EN Ja Ka H J Ju E1) as (-> & R1 & K1 & UN1 & NB1 & Q1 & Q2 & Q3 & Q4).
      destruct (nb_arrow _ _ _ NB1) as (ar' & Ja' & Ka').
      enough (G : _ /\ _) by (destruct G as [G KP]; split; [constructor; exact G|exact KP]).
      apply (IH c1 c2 V ar' rs R1 Ja' Ka' (asked_empty _ _ R1 K1) NB1); [| | | |exact TD|reflexivity|exact (ending_forgot _ _ _ EN)| |exact E2|exact SI'].
      + intros (us & J' & X). apply Q1, Q. exists us. split; [right; exact J'|exact X].
      + intros (us & J' & X). apply Q2, QP. exists us. split; [right; exact J'|exact X].
      + intros (us & J' & X). apply Q3, QU. exists us. split; [right; exact J'|exact X].
      + intros (us & J' & X). apply Q4, QD. exists us. split; [right; exact J'|exact X].
      + intros v N. destruct (UN v N) as [Jv|Jv]; [left; exact Jv|right; exact (UN1 v Jv)].
    - apply obind_ok in E. destruct E as ([a c1] & E1 & E). apply obind_ok in E. destruct E as ([rs c2] & E2 & [= <- <-]).
      inversion SI as [|? ? ? ? _ SI']; subst.
      assert (Qc : inquiry (c_snap c) V) by (apply Q; exists (NameOf w); split; [left; reflexivity|exact I]).
      destruct (named_next _ c c1 V B w a R NB Qc H J E1) as (-> & S1 & R1 & H1).
      enough (G : _ /\ _) by (destruct G as [G KP]; split; [exact (RepliesNameOf td B w _ _ G)|exact KP]).
      apply (IH c1 c2 V ar rs R1 Ja); [rewrite S1; exact Ka|unfold memory in *; rewrite S1; exact H1|rewrite S1; exact NB| | | | |exact TD|reflexivity|exact EN|rewrite S1; exact UN|exact E2|exact SI'].
      + rewrite S1. intros (us & Jp & X0). apply Q. exists us. split; [right; exact Jp|exact X0].
      + rewrite S1. intros (us & Jp & X0). apply QP. exists us. split; [right; exact Jp|exact X0].
      + rewrite S1. intros (us & Jp & X0). apply QU. exists us. split; [right; exact Jp|exact X0].
      + rewrite S1. intros (us & Jp & X0). apply QD. exists us. split; [right; exact Jp|exact X0].
  Qed.
End Notes.
