(** Specification of the patterns of delete_variable as trees: how a pattern is written and
    which names it stands for. *)
From Coq Require Import Ascii String List.
From Verif Require Import S_Regex.
Import ListNotations.
Local Open Scope char_scope.
Local Open Scope list_scope.

Inductive term :=
| TChar (c : ascii)        (* c      the character itself *)
| TAny                     (* .      one character *)
| TRun                     (* *      any run of characters *)
| TQuote (c : ascii)       (* \c     the character itself, also a special one *)
| TGroup (a : alts)        (* (a)    whatever a stands for *)
| TRepeat (t : term)       (* t+     t one or more times *)
| TOptional (t : term)     (* t?     t or nothing *)
with seq :=
| SNil
| SThen (q : seq) (t : term)
with alts :=
| AOne (q : seq)
| AOr (a : alts) (q : seq). (* a|q *)

Fixpoint term_text (t : term) : list ascii :=
  match t with
  | TChar c => [c]
  | TAny => ["."]
  | TRun => ["*"]
  | TQuote c => ["\"; c]
  | TGroup a => "(" :: alts_text a ++ [")"]
  | TRepeat t => term_text t ++ ["+"]
  | TOptional t => term_text t ++ ["?"]
  end
with seq_text (q : seq) : list ascii :=
  match q with
  | SNil => []
  | SThen q t => seq_text q ++ term_text t
  end
with alts_text (a : alts) : list ascii :=
  match a with
  | AOne q => seq_text q
  | AOr a q => alts_text a ++ "|" :: seq_text q
  end.

Fixpoint term_means (t : term) (w : list ascii) : Prop :=
  match t with
  | TChar c => w = [c]
  | TAny => exists c, w = [c] /\ no_newline w
  | TRun => no_newline w
  | TQuote c => w = [c]
  | TGroup a => alts_mean a w
  | TRepeat t => exists ws, ws <> [] /\ w = concat ws /\ Forall (term_means t) ws
  | TOptional t => w = [] \/ term_means t w
  end
with seq_means (q : seq) (w : list ascii) : Prop :=
  match q with
  | SNil => w = []
  | SThen q t => exists u v, w = u ++ v /\ seq_means q u /\ term_means t v
  end
with alts_mean (a : alts) (w : list ascii) : Prop :=
  match a with
  | AOne q => seq_means q w
  | AOr a q => alts_mean a w \/ seq_means q w
  end.

(** Letters and digits cannot be quoted (they mean something else), nor can the star. *)
Definition letter_or_digit (c : ascii) : Prop :=
  48 <= nat_of_ascii c <= 57 \/ 65 <= nat_of_ascii c <= 90 \/ 97 <= nat_of_ascii c <= 122.
(** What + and ? may follow. *)
Definition atom (t : term) : Prop :=
  match t with TChar _ | TAny | TQuote _ | TGroup _ => True | _ => False end.
Fixpoint term_legal (t : term) : Prop :=
  match t with
  | TChar c => plain c
  | TAny | TRun => True
  | TQuote c => ~ letter_or_digit c /\ c <> "*"
  | TGroup a => alts_legal a
  | TRepeat t | TOptional t => atom t /\ term_legal t
  end
with seq_legal (q : seq) : Prop :=
  match q with
  | SNil => True
  | SThen q t => seq_legal q /\ term_legal t
  end
with alts_legal (a : alts) : Prop :=
  match a with
  | AOne q => seq_legal q
  | AOr a q => alts_legal a /\ seq_legal q
  end.

Definition pattern_text (a : alts) : string := string_of_list_ascii (alts_text a).
Definition stands_for (a : alts) (name : string) : Prop := alts_mean a (list_ascii_of_string name).

(** A name written with every special character quoted. *)
Fixpoint quoted (w : list ascii) : list ascii :=
  match w with
  | [] => []
  | c :: w => if in_dec Ascii.ascii_dec c ["^"; "$"; "\"; "."; "*"; "+"; "?"; "("; ")"; "["; "]"; "{"; "}"; "|"]
              then "\" :: c :: quoted w else c :: quoted w
  end.
Definition quoted_name (name : string) : string := string_of_list_ascii (quoted (list_ascii_of_string name)).
