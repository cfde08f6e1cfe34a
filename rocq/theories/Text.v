(** Characters and texts. *)
From Verif Require Export Base.
From Coq Require Import String.

(** [char::is_whitespace]: the Unicode [White_Space] property (used at
    zia/src/context.rs:167).  The table is Unicode's PropList. *)
Definition is_whitespace (c : N) : bool :=
  ((9 <=? c) && (c <=? 13) || (c =? 32) || (c =? 133) || (c =? 160) || (c =? 5760)
   || ((8192 <=? c) && (c <=? 8202)) || (c =? 8232) || (c =? 8233) || (c =? 8239)
   || (c =? 8287) || (c =? 12288))%N.

Definition c_open : N := 40%N.      (* ( *)
Definition c_close : N := 41%N.     (* ) *)
Definition c_underscore : N := 95%N.
Definition c_space : N := 32%N.

(** [str::starts_with(char)] *)
Definition starts_with (c : N) (s : text) : bool :=
  match s with [] => false | x :: _ => N.eqb x c end.
(** [str::ends_with(char)] *)
Definition ends_with (c : N) (s : text) : bool :=
  match unsnoc s with None => false | Some (_, x) => N.eqb x c end.

(** zia/src/ast/mod.rs:25-27 *)
Definition is_variable_text (s : text) : bool :=
  starts_with c_underscore s && ends_with c_underscore s && negb (smem N.eqb c_space s).

(** zia/src/context.rs:266: the test inside [concept_kind_from_symbol] (no test for
    spaces there). *)
Definition is_variable_symbol (s : text) : bool :=
  starts_with c_underscore s && ends_with c_underscore s.
