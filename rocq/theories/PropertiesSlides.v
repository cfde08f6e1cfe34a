(** C64: the slides are printed after the commands of the documentation example. *)
From Verif Require Import Start Sample Replay Slides.
From Coq Require Import String List PeanoNat Bool Lia.
Import ListNotations.
Local Open Scope string_scope.

(** ** C64 *)
(** The commands that are given are those of the first calls on the lines of the first example, in their order. *)
Theorem C64_commands_of_the_example before lines calls after :
  first fence before -> Forall example_line lines -> Forall2 line_calls lines calls ->
  collected (before ++ fence ++ concat (map written lines) ++ fence ++ after)%list = Ok (concat calls).
Proof. exact (collected_lines before lines calls after). Qed.
Print Assumptions C64_commands_of_the_example.

(** The slides are printed exactly if a new interpreter takes all these commands, and nothing else is ever printed. *)
Theorem C64_slides_after_the_commands cfg fuel before lines calls after slides printed :
  first fence before -> Forall example_line lines -> Forall2 line_calls lines calls ->
  present cfg fuel (before ++ fence ++ concat (map written lines) ++ fence ++ after)%list slides = Ok printed <->
  printed = slides /\ exists c answers c', new_context cfg fuel = Ok c /\ run_session cfg fuel (concat calls) c = Ok (answers, c').
Proof.
  intros F1 F2 F3. unfold present. rewrite (collected_lines before lines calls after F1 F2 F3). cbn [obind].
  destruct (new_context cfg fuel) as [c|e|site|]; cbn [obind].
  2-4: split; [discriminate|intros (_ & c0 & rs & c' & E & _); discriminate E].
  destruct (run_session cfg fuel (concat calls) c) as [[rs c']|e|site|] eqn:R; cbn [obind].
  - split; [intros [= <-]|intros (-> & _); reflexivity]. split; [reflexivity|]. exists c, rs, c'. split; [reflexivity|exact R].
  - split; [discriminate|]. intros (_ & c0 & rs & c' & [= <-] & E). congruence.
  - split; [discriminate|]. intros (_ & c0 & rs & c' & [= <-] & E). congruence.
  - split; [discriminate|]. intros (_ & c0 & rs & c' & [= <-] & E). congruence.
Qed.
Print Assumptions C64_slides_after_the_commands.

(** A source without a fence is refused before anything is done. *)
Theorem C64_no_example cfg fuel source slides : ~ occurs fence source -> exists site, present cfg fuel source slides = Panic site.
Proof. intros N. unfold present, collected, Slides.split. rewrite split_none by exact N. eexists. reflexivity. Qed.
Print Assumptions C64_no_example.

(** ** The documentation itself *)
(** zia/src/lib.rs:1-42 *)
Definition doc_before : text := flat_map (fun l => l ++ [10%N])%list [
  txt "//  Library for the Zia programming language.";
  txt "// Copyright (C) 2018 to 2019 Charles Johnson";
  txt "//";
  txt "// This program is free software: you can redistribute it and/or modify";
  txt "// it under the terms of the GNU General Public License as published by";
  txt "// the Free Software Foundation, either version 3 of the License, or";
  txt "// (at your option) any later version.";
  txt "//";
  txt "// This program is distributed in the hope that it will be useful,";
  txt "// but WITHOUT ANY WARRANTY; without even the implied warranty of";
  txt "// MERCHANTABILITY or FITNESS FOR A PARTICULAR PURPOSE.  See the";
  txt "// GNU General Public License for more details.";
  txt "//";
  txt "// You should have received a copy of the GNU General Public License";
  txt "// along with this program. If not, see <http://www.gnu.org/licenses/>.";
  [];
  txt "//! [![Crates.io](https://img.shields.io/crates/v/zia.svg)](https://crates.io/crates/zia)";
  txt "//!";
  txt "//! # Interpreter for the Zia programming language";
  txt "//!";
  txt "//! > I gave a talk about this at the Rust Seoul meetup: <https://www.youtube.com/watch?v=LbFTP3pITWU>";
  txt "//!";
  txt "//! The Zia project aims to develop a programming language that can be used to program itself.";
  txt "//! You can try out interactive tutorials via the [online editor](https://zia-lang.org) or install";
  txt "//! a command line REPL, (`izia`)[<https://github.com/Charles-Johnson/zia_programming/tree/master/izia>].";
  txt "//! The commands sent are interpreted based on the `Context`. They are used to incrementally modify, test";
  txt "//! and debug the `Context`.";
  txt "//!";
  txt "//! Expressions for Zia commands represent a binary tree where parentheses group a pair of expressions";
  txt "//! and a space separates a pair of expressions. For example `""(ll lr) (rl rr)""` represents a perfect";
  txt "//! binary tree of height 2 with leaves `""ll""`, `""lr""`, `""rl""`, `""rr""` going from left to right.";
  txt "//!";
  txt "//! The leaves of the tree can be any unicode string without spaces or parentheses. These symbols may";
  txt "//! be recognised by the intepreter as concepts or if not used to label new concepts.";
  txt "//!";
  txt "//! So far there are 14 built-in concepts. A new `Context` labels these with the symbols, `label_of`,";
  txt "//! `->`, `:=`, `let`, `true`, `false`, `assoc`, `right`, `left`, `precedes`, `>`, `=>`, `forget` and";
  txt "//! `exists_such_that` but the concepts can be renamed (via the `:=` concept, as shown below) to";
  txt "//! different symbols for different languages or disciplines.";
  txt "//!";
  txt "//! # Examples";
  txt "//!"].

(** zia/src/lib.rs:44-105, each line without its margin *)
Definition doc_lines : list (option text) := [
  Some (txt "extern crate zia;");
  Some (txt "use zia::{multi_threaded::Context, ZiaError};");
  None;
  Some (txt "// Construct a new `Context` using the `new` method");
  Some (txt "let mut context = Context::new().expect(""Context should be created successfully "");");
  None;
  Some (txt "// Specify the rule that the concept ""a b"" reduces to concept ""c""");
  Some (txt "assert_eq!(context.execute(""let a b -> c""), """");");
  Some (txt "assert_eq!(context.execute(""a b""), ""c"");");
  None;
  Some (txt "// Change the rule so that concept ""a b"" instead reduces to concept ""d""");
  Some (txt "assert_eq!(context.execute(""forget a b""), """");");
  Some (txt "assert_eq!(context.execute(""let a b -> d""), """");");
  Some (txt "assert_eq!(context.execute(""a b""), ""d"");");
  None;
  Some (txt "// Change the rule so ""a b"" doesn't reduce any further");
  Some (txt "assert_eq!(context.execute(""let a b -> a b""), """");");
  Some (txt "assert_eq!(context.execute(""a b""), ""a b"");");
  None;
  Some (txt "// Try to specify a rule that already exists");
  Some (txt "assert_eq!(context.execute(""let a b -> a b""), ZiaError::RedundantReduction{syntax: ""a b"".to_string()}.to_string());");
  Some (txt "assert_eq!(context.execute(""let a b -> c""), """");");
  Some (txt "assert_eq!(context.execute(""let a b -> c""), ZiaError::ExistingReduction{syntax_to_reduce: ""a b"".to_string(), existing_reduction: ""c"".to_string()}.to_string());");
  None;
  Some (txt "// Relabel ""label_of"" to """ ++ [54364%N; 49884%N] ++ txt """")%list;
  Some (txt "assert_eq!(context.execute(""let " ++ [54364%N; 49884%N] ++ txt " := label_of""), """");")%list;
  Some (txt "assert_eq!(context.execute(""" ++ [54364%N; 49884%N] ++ txt " a b""), ""\'c\'"");")%list;
  None;
  Some (txt "// You can reduce a labelled concept");
  Some (txt "assert_eq!(context.execute(""let a -> d""), """");");
  None;
  Some (txt "// Try to specify the composition of a concept in terms of itself");
  Some (txt "assert_eq!(context.execute(""let b := a b""), ZiaError::InfiniteComposition.to_string());");
  None;
  Some (txt "// Try to specify the reduction of concept in terms of itself");
  Some (txt "assert_eq!(context.execute(""let c d -> (c d) e""), ZiaError::ExpandingReduction.to_string());");
  None;
  Some (txt "// Determine the truth of a reduction");
  Some (txt "assert_eq!(context.execute(""a -> d""), ""true"");");
  Some (txt "assert_eq!(context.execute(""d -> a""), ""false"");");
  None;
  Some (txt "// A concept never reduces to itself");
  Some (txt "assert_eq!(context.execute(""a -> a""), ""false"");");
  None;
  Some (txt "// Cannot reduce a reduction expression between unrelated concepts");
  Some (txt "assert_eq!(context.execute(""d -> f""), ""d -> f"");");
  None;
  Some (txt "// Can ask whether a reduction is true or false");
  Some (txt "assert_eq!(context.execute(""(a -> d) -> true""), ""true"");");
  Some (txt "assert_eq!(context.execute(""(d -> a) -> false""), ""true"");");
  None;
  Some (txt "// Let an arbitary symbol be true");
  Some (txt "assert_eq!(context.execute(""let g""), """");");
  Some (txt "assert_eq!(context.execute(""g""), ""true"");");
  None;
  Some (txt "// Let an arbitary expression be true");
  Some (txt "assert_eq!(context.execute(""let h i j""), """");");
  Some (txt "assert_eq!(context.execute(""h i j""), ""true"");");
  None;
  Some (txt "// Define patterns");
  Some (txt "assert_eq!(context.execute(""let _x_ or true -> true""), """");");
  Some (txt "assert_eq!(context.execute(""false or true""), ""true"");")].

(** Deciding the hypotheses: the text before the first occurrence of a pattern and the text after it. *)
Fixpoint cut (p t : text) : option (text * text) :=
  if is_prefix p t then Some ([], skipn (List.length p) t) else
  match t with
  | [] => None
  | x :: t => match cut p t with Some (a, b) => Some (x :: a, b) | None => None end
  end.
Lemma cut_some p : forall t a b, cut p t = Some (a, b) -> t = (a ++ p ++ b)%list /\ first p a.
Proof.
  assert (B : forall t, is_prefix p t = true -> t = (p ++ skipn (List.length p) t)%list).
  { intros t E. apply is_prefix_spec in E. destruct E as (b & ->). rewrite skipn_app, skipn_all, Nat.sub_diag. reflexivity. }
  assert (O : first p []).
  { intros x y E. apply (f_equal (@List.length _)) in E. cbn [app] in E. rewrite !app_length in E. destruct y; [reflexivity|cbn in E; lia]. }
  induction t as [|x t IH]; intros a b; cbn [cut].
  - destruct (is_prefix p []) eqn:E; [|discriminate]. intros [= <- <-]. split; [exact (B _ E)|exact O].
  - destruct (is_prefix p (x :: t)) eqn:E; [intros [= <- <-]; split; [exact (B _ E)|exact O]|].
    destruct (cut p t) as [[a' b']|]; [|discriminate]. intros [= <- <-]. destruct (IH a' b' eq_refl) as [-> F].
    split; [reflexivity|]. intros [|u x'] y Y.
    + exfalso. cbn [app] in Y. assert (is_prefix p (x :: a' ++ p ++ b')%list = true); [|congruence].
      apply is_prefix_spec. exists (y ++ b')%list. transitivity ((x :: a' ++ p) ++ b')%list; [cbn; rewrite <- app_assoc; reflexivity|]. cbn [app] in Y. rewrite app_assoc. f_equal. exact Y.
    + injection Y as _ Y. exact (F x' y Y).
Qed.
Lemma cut_none p : forall t, cut p t = None -> occurs_b p t = false.
Proof.
  induction t as [|x t IH]; cbn [cut occurs_b]; destruct (is_prefix p _); try discriminate; [reflexivity|].
  destruct (cut p t) as [[a b]|]; [discriminate|]. intros _. apply IH. reflexivity.
Qed.
Definition calls_of (l : option text) : option (list text) :=
  match l with
  | None => Some []
  | Some code =>
    match cut call_opens code with
    | None => Some []
    | Some (_, b) => match cut call_closes b with
                     | Some (command, _) => if occurs_b call_opens (command ++ call_closes)%list then None else Some [command]
                     | None => None
                     end
    end
  end.
Lemma calls_of_ok l cs : calls_of l = Some cs -> line_calls l cs.
Proof.
  destruct l as [code|]; cbn [calls_of line_calls]; [|intros [= <-]; reflexivity].
  destruct (cut call_opens code) as [[a b]|] eqn:E1.
  - destruct (cut call_closes b) as [[command d]|] eqn:E2; [|discriminate].
    destruct (occurs_b call_opens (command ++ call_closes)%list) eqn:E3; [discriminate|]. intros [= <-]. right. exists command. split; [reflexivity|].
    apply cut_some in E1. destruct E1 as [-> F1]. apply cut_some in E2. destruct E2 as [-> F2].
    exists a, d. split; [reflexivity|]. split; [exact F1|]. split; [exact F2|]. apply occurs_b_ok. exact E3.
  - intros [= <-]. left. split; [reflexivity|]. apply occurs_b_ok, cut_none. exact E1.
Qed.
Definition example_line_b (l : option text) : bool :=
  match l with
  | None => true
  | Some code => negb (existsb (N.eqb 10) code) && negb (is_prefix (txt "```") code) && negb (occurs_b (txt "//!") code)
  end.
Lemma example_line_ok l : example_line_b l = true -> example_line l.
Proof.
  destruct l as [code|]; cbn [example_line_b example_line]; [|auto]. intros E. apply andb_prop in E. destruct E as [E E3]. apply andb_prop in E. destruct E as [E1 E2].
  apply negb_true_iff in E1, E2, E3. split; [|split].
  - intros I. assert (existsb (N.eqb 10) code = true) by (apply existsb_exists; exists 10%N; split; [exact I|reflexivity]). congruence.
  - intros ->. discriminate E2.
  - apply occurs_b_ok. exact E3.
Qed.
Fixpoint calls_list (ls : list (option text)) : option (list (list text)) :=
  match ls with
  | [] => Some []
  | l :: ls => match calls_of l, calls_list ls with Some c, Some cs => Some (c :: cs) | _, _ => None end
  end.
Lemma calls_list_ok : forall ls cs, calls_list ls = Some cs -> Forall2 line_calls ls cs.
Proof.
  induction ls as [|l ls IH]; cbn [calls_list]; intros cs E; [injection E as <-; constructor|].
  destruct (calls_of l) as [c|] eqn:E1; [|discriminate]. destruct (calls_list ls) as [cs'|]; [|discriminate]. injection E as <-.
  constructor; [apply calls_of_ok; exact E1|apply IH; reflexivity].
Qed.

(** The commands of the documentation, as in [Replay.documented]. *)
Definition doc_commands : list text :=
  (map txt ["let a b -> c"; "a b"; "forget a b"; "let a b -> d"; "a b"; "let a b -> a b";
            "a b"; "let a b -> a b"; "let a b -> c"; "let a b -> c"]
   ++ [txt "let " ++ [54364%N; 49884%N] ++ txt " := label_of";
       [54364%N; 49884%N] ++ txt " a b"]
   ++ map txt ["let a -> d"; "let b := a b"; "let c d -> (c d) e"; "a -> d"; "d -> a";
               "a -> a"; "d -> f"; "(a -> d) -> true"; "(d -> a) -> false"; "let g"; "g";
               "let h i j"; "h i j"; "let _x_ or true -> true"; "false or true"])%list.

(** The documentation meets the hypotheses, and its commands are those of the example. *)
Example C64_documentation : exists calls,
  first fence doc_before /\ Forall example_line doc_lines /\ Forall2 line_calls doc_lines calls /\ concat calls = doc_commands /\
  forall after, collected (doc_before ++ fence ++ concat (map written doc_lines) ++ fence ++ after)%list = Ok doc_commands.
Proof.
  assert (A : exists calls, calls_list doc_lines = Some calls /\ concat calls = doc_commands) by (eexists; split; vm_compute; reflexivity).
  destruct A as (calls & A & C). exists calls.
  assert (F1 : first fence doc_before).
  { assert (E : cut fence (doc_before ++ fence)%list = Some (doc_before, [])) by (vm_compute; reflexivity). apply cut_some in E. apply E. }
  assert (F2 : Forall example_line doc_lines).
  { apply Forall_forall. intros l I. apply example_line_ok. revert l I. apply forallb_forall. vm_compute. reflexivity. }
  apply calls_list_ok in A. split; [exact F1|]. split; [exact F2|]. split; [exact A|]. split; [exact C|].
  intros after. rewrite <- C. exact (C64_commands_of_the_example _ _ _ after F1 F2 A).
Qed.
(** Run on the documentation, the program prints the slides (checked when the model is built). *)
Definition presented :
  replays (present cfg0 fuel0 (doc_before ++ fence ++ concat (map written doc_lines) ++ fence ++ txt "mod and_also;")%list (txt "the slides"))
    (Ok (txt "the slides")) := ltac:(replayed).
(** A second call on a line is passed over, and so is everything after the first example. *)
Example C64_first_calls :
  collected (txt "// notes" ++ [10%N] ++ fence ++ written (Some (txt "context.execute(""a""); context.execute(""b"");"))
             ++ written None ++ written (Some (txt "let c = context.execute(""c (d)"");")) ++ fence ++ fence
             ++ written (Some (txt "context.execute(""e"");")) ++ fence)%list
  = Ok [txt "a"; txt "c (d)"].
Proof.
  assert (E : Forall example_line [Some (txt "context.execute(""a""); context.execute(""b"");"); None; Some (txt "let c = context.execute(""c (d)"");")]).
  { apply Forall_forall. intros l J. apply example_line_ok. revert l J. apply forallb_forall. vm_compute. reflexivity. }
  assert (C : Forall2 line_calls [Some (txt "context.execute(""a""); context.execute(""b"");"); None; Some (txt "let c = context.execute(""c (d)"");")] [[txt "a"]; []; [txt "c (d)"]])
    by (apply calls_list_ok; vm_compute; reflexivity).
  exact (C64_commands_of_the_example (txt "// notes" ++ [10%N])%list _ _
    (fence ++ written (Some (txt "context.execute(""e"");")) ++ fence)%list
    (proj2 (cut_some fence (txt "// notes" ++ [10%N] ++ fence)%list _ _ eq_refl)) E C).
Qed.
Example C64_nothing_to_present : exists site, present cfg0 fuel0 (txt "// no example here") (txt "the slides") = Panic site.
Proof. apply C64_no_example. apply occurs_b_ok. vm_compute. reflexivity. Qed.
