(** Model of the name matching done by [delete_variable].

    The code (src/main/c/fastestlapc.cpp:844-847) replaces every ['*'] of its
    argument by [".*"], compiles the result with [std::regex] (ECMAScript
    grammar) and deletes every key accepted by [std::regex_match].

    [std::regex] is not part of the repository; this file models the part of the
    ECMAScript grammar made of ordinary characters, ['.'], groups, ['|'],
    the quantifiers ['*'], ['+'], ['?'] (and their lazy forms) and escaped
    non-alphanumeric characters. Patterns using other constructs ([\[], [{],
    [^], [$], [(?], [\d]...) are given the distinct outcome [RUnmodelled]:
    no theorem says anything about them. *)
From Coq Require Import Ascii String List Bool.
Import ListNotations.
Local Open Scope char_scope.
Local Open Scope list_scope.


(** Regular expressions; [Dot] is any character except a line terminator. *)
Inductive re : Type :=
| Emp | Eps
| Chr (c : ascii)
| Dot
| Cat (a b : re)
| Alt (a b : re)
| Star (a : re).

(** ECMAScript line terminators among 8-bit characters: LF and CR. *)
Definition is_line_terminator (c : ascii) : bool :=
  Ascii.eqb c (ascii_of_nat 10) || Ascii.eqb c (ascii_of_nat 13).

Definition between (lo hi : nat) (c : ascii) : bool :=
  Nat.leb lo (nat_of_ascii c) && Nat.leb (nat_of_ascii c) hi.

Definition is_alnum (c : ascii) : bool :=
  between 48 57 c || between 65 90 c || between 97 122 c.

(** The ECMAScript syntax characters. *)
Definition syntax_chars : list ascii :=
  ["^"; "$"; "\"; "."; "*"; "+"; "?"; "("; ")"; "["; "]"; "{"; "}"; "|"].

Definition is_syntax (c : ascii) : bool := existsb (Ascii.eqb c) syntax_chars.

Inductive parsed : Type :=
| ROk (r : re)          (* accepted *)
| RError                (* std::regex_error is thrown by the constructor *)
| RUnmodelled.          (* construct outside this model *)

(** A parser frame for one open group: the alternatives already closed by ['|'],
    the terms of the current alternative, and the last atom with the number of
    quantifier characters applied to it (a quantifier can only follow an atom). *)
Record frame := Frame {
  f_alts : option re;
  f_seq  : re;
  f_last : option (re * nat)
}.

Definition empty_frame : frame := Frame None Eps None.

Definition close_seq (f : frame) : re :=
  match f_last f with
  | Some (a, _) => Cat (f_seq f) a
  | None => f_seq f
  end.

Definition close_alt (f : frame) : re :=
  match f_alts f with
  | Some a => Alt a (close_seq f)
  | None => close_seq f
  end.

Definition push_atom (f : frame) (a : re) : frame :=
  Frame (f_alts f) (close_seq f) (Some (a, 0)).

Definition bar (f : frame) : frame := Frame (Some (close_alt f)) Eps None.

(** Outcome of applying a quantifier character to the last atom. *)
Inductive quant_result := QFrame (f : frame) | QError | QUnmodelled.

Definition quantify (f : frame) (g : re -> re) (is_opt : bool) : quant_result :=
  match f_last f with
  | None => QError
  | Some (a, 0) => QFrame (Frame (f_alts f) (f_seq f) (Some (g a, 1)))
  | Some (a, 1) => if is_opt then QFrame (Frame (f_alts f) (f_seq f) (Some (a, 2)))
                   else QUnmodelled
  | Some (a, _) => QUnmodelled
  end.

(** models: the [std::regex] constructor called at
    src/main/c/fastestlapc.cpp:846, for the grammar above. [top] is the innermost
    open group and [stk] the enclosing ones. *)
Fixpoint parse (s : list ascii) (top : frame) (stk : list frame) {struct s} : parsed :=
  match s with
  | [] => match stk with [] => ROk (close_alt top) | _ => RError end
  | c :: s' =>
      if Ascii.eqb c "." then parse s' (push_atom top Dot) stk
      else if Ascii.eqb c "*" then
        match quantify top Star false with
        | QFrame f => parse s' f stk | QError => RError | QUnmodelled => RUnmodelled end
      else if Ascii.eqb c "+" then
        match quantify top (fun a => Cat a (Star a)) false with
        | QFrame f => parse s' f stk | QError => RError | QUnmodelled => RUnmodelled end
      else if Ascii.eqb c "?" then
        match quantify top (fun a => Alt a Eps) true with
        | QFrame f => parse s' f stk | QError => RError | QUnmodelled => RUnmodelled end
      else if Ascii.eqb c "|" then parse s' (bar top) stk
      else if Ascii.eqb c "(" then
        match s' with
        | d :: _ => if Ascii.eqb d "?" then RUnmodelled
                    else parse s' empty_frame (top :: stk)
        | [] => RError
        end
      else if Ascii.eqb c ")" then
        match stk with
        | [] => RError
        | f :: stk' => parse s' (push_atom f (close_alt top)) stk'
        end
      else if Ascii.eqb c "\" then
        match s' with
        | [] => RError
        | d :: s'' => if is_alnum d then RUnmodelled
                      else parse s'' (push_atom top (Chr d)) stk
        end
      else if Ascii.eqb c "[" || Ascii.eqb c "{" || Ascii.eqb c "^" || Ascii.eqb c "$"
      then RUnmodelled
      else parse s' (push_atom top (Chr c)) stk
  end.

(** models: [std::regex_replace(variable_name, std::regex("\\*"), ".*")],
    src/main/c/fastestlapc.cpp:845. *)
Fixpoint expand_stars (s : list ascii) : list ascii :=
  match s with
  | [] => []
  | c :: s' => if Ascii.eqb c "*" then "." :: "*" :: expand_stars s' else c :: expand_stars s'
  end.

(** models: src/main/c/fastestlapc.cpp:844-846, from the argument of
    [delete_variable] to the compiled expression. *)
Definition compile (pattern : string) : parsed :=
  parse (expand_stars (list_ascii_of_string pattern)) empty_frame [].

(** models: [std::regex_match(key, m, re)] (whole-string match),
    src/main/c/fastestlapc.cpp:852,863,874,885,896; by Brzozowski derivatives. *)
Fixpoint nullable (r : re) : bool :=
  match r with
  | Emp => false | Eps => true | Chr _ => false | Dot => false
  | Cat a b => nullable a && nullable b
  | Alt a b => nullable a || nullable b
  | Star _ => true
  end.

Fixpoint deriv (c : ascii) (r : re) : re :=
  match r with
  | Emp => Emp | Eps => Emp
  | Chr d => if Ascii.eqb c d then Eps else Emp
  | Dot => if is_line_terminator c then Emp else Eps
  | Cat a b => if nullable a then Alt (Cat (deriv c a) b) (deriv c b) else Cat (deriv c a) b
  | Alt a b => Alt (deriv c a) (deriv c b)
  | Star a => Cat (deriv c a) (Star a)
  end.

Fixpoint regex_match (r : re) (s : list ascii) : bool :=
  match s with
  | [] => nullable r
  | c :: s' => regex_match (deriv c r) s'
  end.

Definition matches_name (r : re) (name : string) : bool :=
  regex_match r (list_ascii_of_string name).
