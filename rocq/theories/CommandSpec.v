(** Commands as texts: which are well bracketed and when two say the same, said with the
    tokenisation of LexerSpec.v only. *)
From Verif Require Import LexerSpec.
From Coq Require Import List NArith.
Import ListNotations.

(** The tokens that matter: all but white space. *)
Definition significant (ts : list (char_class * list N)) : list (char_class * list N) :=
  filter (fun '(k, _) => match k with ClSpace => false | _ => true end) ts.

(** Two texts with the same symbols and brackets in the same order. *)
Definition same_tokens (s1 s2 : list N) : Prop :=
  exists ts1 ts2, tokenisation s1 ts1 /\ tokenisation s2 ts2 /\ significant ts1 = significant ts2.

(** A well-bracketed expression: symbols, non-empty bracketed expressions, and expressions
    written one after the other. *)
Inductive proper : list char_class -> Prop :=
| pr_symbol : proper [ClSymbol]
| pr_group ks : proper ks -> proper (ClOpen :: ks ++ [ClClose])
| pr_append ks1 ks2 : proper ks1 -> proper ks2 -> proper (ks1 ++ ks2).
Definition properly_bracketed (s : list N) : Prop :=
  exists ts, tokenisation s ts /\ proper (map fst (significant ts)).
