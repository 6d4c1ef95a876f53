(** Specification of the splitting of alias texts "key1;key2;key3". *)
From Coq Require Import Ascii String List.
From Verif Require Import M_Regex M_Alias.
Import ListNotations.
Local Open Scope char_scope.
Local Open Scope list_scope.

(** The texts between the semicolons. *)
Fixpoint pieces (s : list ascii) : list (list ascii) :=
  match s with
  | [] => [[]]
  | c :: s' =>
      if Ascii.eqb c ";" then [] :: pieces s'
      else match pieces s' with p :: ps => (c :: p) :: ps | [] => [[c]] end
  end.

(** The text with the given pieces. *)
Fixpoint join (ps : list (list ascii)) : list ascii :=
  match ps with
  | [] => []
  | [p] => p
  | p :: ps' => p ++ ";" :: join ps'
  end.

Definition no_terminators (s : list ascii) : Prop := forall c, In c s -> is_line_terminator c = false.

(** A name as users write them: not empty, no semicolon, no line terminator, no white space at its ends and no two
    spaces in a row. *)
Record clean (s : list ascii) : Prop := Clean {
  c_first : exists c r, s = c :: r /\ is_space c = false;
  c_last : exists c r, s = r ++ [c] /\ is_space c = false;
  c_semicolon : ~ In ";" s;
  c_terminator : no_terminators s;
  c_spaces : forall a b, s <> a ++ " " :: " " :: b
}.

(** White space before a name. *)
Definition blanks (s : list ascii) : Prop := forall c, In c s -> c = " ".
