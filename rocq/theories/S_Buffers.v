(** Specification vocabulary for the caller's arrays. *)
From stdpp Require Import base strings list.
From Coq Require Import ZArith Ascii.
From Verif Require Import M_Buffers.

(** The array [b] begins with the characters of [t] and a terminator, followed by
    what was there before. *)
Definition holds_text (t : string) (before b : list ascii) : Prop :=
  b = list_ascii_of_string t ++ [ascii_of_nat 0] ++ drop (S (String.length t)) before.

(** Text without embedded NUL characters. *)
Definition text_only (t : string) : Prop := ~ In (ascii_of_nat 0) (list_ascii_of_string t).

(** A C [int]. *)
Definition is_int (n : Z) : Prop := (-2 ^ 31 <= n < 2 ^ 31)%Z.
