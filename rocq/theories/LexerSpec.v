(** What tokenising means, said without reference to how the lexer works. *)
From Verif Require Import Lexer.
From Coq Require Import List NArith Lia.
Import ListNotations.

(** The four classes of characters. *)
Inductive char_class := ClOpen | ClClose | ClSpace | ClSymbol.

Definition class_of (c : N) : char_class :=
  if N.eqb c 40 then ClOpen            (* ( *)
  else if N.eqb c 41 then ClClose      (* ) *)
  else if is_whitespace c then ClSpace
  else ClSymbol.

(** A token of a class: brackets stand alone, spaces and symbols form runs. *)
Definition is_token (k : char_class) (t : text) : Prop :=
  t <> [] /\ (forall c, In c t -> class_of c = k) /\
  (k = ClOpen \/ k = ClClose -> length t = 1).

(** No two neighbouring tokens are both space or both symbol. *)
Definition no_merge (ks : list char_class) : Prop :=
  forall i k, nth_error ks i = Some k -> nth_error ks (S i) = Some k ->
  k = ClOpen \/ k = ClClose.

(** [ts] is a tokenisation of [s] into maximal runs. *)
Definition tokenisation (s : text) (ts : list (char_class * text)) : Prop :=
  concat (map snd ts) = s /\
  (forall k t, In (k, t) ts -> is_token k t) /\
  no_merge (map fst ts).

(** Bracket matching over token classes: a segment is balanced if it is built from
    non-brackets, juxtaposition and bracketing. *)
Inductive balanced : list char_class -> Prop :=
| bal_nil : balanced []
| bal_other k ks : k <> ClOpen -> k <> ClClose -> balanced ks -> balanced (k :: ks)
| bal_pair inner ks : balanced inner -> balanced ks ->
    balanced (ClOpen :: inner ++ ClClose :: ks).

(** The bracket at [i] matches the one at [j]. *)
Definition bracket_match (ks : list char_class) (i j : nat) : Prop :=
  exists before inner after,
    ks = before ++ ClOpen :: inner ++ ClClose :: after /\
    i = length before /\ j = S (length before + length inner) /\ balanced inner.

(** What a lexeme's category says its class is. *)
Definition cat_class (c : category) : char_class :=
  match c with
  | CatConcept _ => ClSymbol
  | CatWhitespace => ClSpace
  | CatOpen _ => ClOpen
  | CatClose _ => ClClose
  end.
