(** Specification of wildcard patterns, independent of regular expressions. *)
From Coq Require Import Ascii String List.
Import ListNotations.
Local Open Scope char_scope.

(** Characters with no special meaning in a pattern: everything except the
    ECMAScript syntax characters. *)
Definition plain (c : ascii) : Prop :=
  ~ In c ["^"; "$"; "\"; "."; "*"; "+"; "?"; "("; ")"; "["; "]"; "{"; "}"; "|"].

Definition plain_or_star (c : ascii) : Prop := plain c \/ c = "*".
Definition plain_or_dot (c : ascii) : Prop := plain c \/ c = ".".

(** Line feed and carriage return. *)
Definition no_newline (w : list ascii) : Prop :=
  ~ In (ascii_of_nat 10) w /\ ~ In (ascii_of_nat 13) w.

(** [glob p s]: the text [s] is obtained from the pattern [p] by replacing each
    ['*'] with some run (possibly empty) of characters of one line. *)
Inductive glob : list ascii -> list ascii -> Prop :=
| glob_nil : glob [] []
| glob_chr c p s : c <> "*" -> glob p s -> glob (c :: p) (c :: s)
| glob_star w p s : no_newline w -> glob p s -> glob ("*" :: p) (w ++ s).

(** [dotted p s]: [s] is [p] with every ['.'] replaced by some character. *)
Inductive dotted : list ascii -> list ascii -> Prop :=
| dotted_nil : dotted [] []
| dotted_chr c p s : c <> "." -> dotted p s -> dotted (c :: p) (c :: s)
| dotted_dot d p s : no_newline [d] -> dotted p s -> dotted ("." :: p) (d :: s).

Definition glob_name (pattern name : string) : Prop :=
  glob (list_ascii_of_string pattern) (list_ascii_of_string name).
Definition dotted_name (pattern name : string) : Prop :=
  dotted (list_ascii_of_string pattern) (list_ascii_of_string name).
Definition all_chars (P : ascii -> Prop) (s : string) : Prop :=
  Forall P (list_ascii_of_string s).
