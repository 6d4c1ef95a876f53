(** Model of the splitting of the aliases of a varying parameter (src/main/c/fastestlapc.cpp:958-969)
    and of [trim] (src/main/c/fastestlapc.cpp:46-56).

    The three regular expressions used are fixed, so each is modelled by the function it computes with the
    ECMAScript grammar of std::regex without the multiline flag: ['^'] and ['$'] are the ends of the text,
    ['.'] is anything but a line terminator. Strings are lists of characters. *)
From Coq Require Import Ascii String Bool Arith List.
From Verif Require Import M_Regex M_Store.
Import ListNotations.
Local Open Scope char_scope.
Local Open Scope list_scope.

(** models: the class \s (std::isspace in the C locale). *)
Definition is_space (c : ascii) : bool := between 9 13 c || Ascii.eqb c " ".

(** models: "(.*?);" matched at the start of the text: the shortest run without line terminators
    before a semicolon, and what follows the semicolon. *)
Fixpoint to_semicolon (s : list ascii) : option (list ascii * list ascii) :=
  match s with
  | [] => None
  | c :: s' =>
      if Ascii.eqb c ";" then Some ([], s')
      else if is_line_terminator c then None
      else match to_semicolon s' with Some (a, r) => Some (c :: a, r) | None => None end
  end.

(** models: std::regex_search with "\S(.*?);", fastestlapc.cpp:959-963, and pop_back, :965: the first
    position where the expression matches; the match without its semicolon, and the suffix. *)
Fixpoint search (s : list ascii) : option (list ascii * list ascii) :=
  match s with
  | [] => None
  | c :: s' =>
      if is_space c then search s'
      else match to_semicolon s' with Some (a, r) => Some (c :: a, r) | None => search s' end
  end.

(** models: std::regex_replace(_, "^ +| +$|( ) +", "$1"), fastestlapc.cpp:969: leading spaces and trailing spaces
    go, longer runs of spaces become one. Only spaces, not other white space. *)
Fixpoint drop_spaces (s : list ascii) : list ascii :=
  match s with
  | c :: s' => if Ascii.eqb c " " then drop_spaces s' else s
  | [] => []
  end.
Fixpoint squeeze (after_space : bool) (s : list ascii) : list ascii :=
  match s with
  | [] => []
  | c :: s' =>
      if Ascii.eqb c " " then
        if forallb (Ascii.eqb " ") s' then []
        else if after_space then squeeze true s' else c :: squeeze true s'
      else c :: squeeze false s'
  end.
Definition last_alias (s : list ascii) : list ascii := squeeze false (drop_spaces s).

(** models: the loop, fastestlapc.cpp:963-969. Every match is at least two characters long, so the length of the text is
    enough fuel. *)
Fixpoint split_loop (fuel : nat) (s : list ascii) : list (list ascii) :=
  match fuel with
  | O => [last_alias s]
  | S f => match search s with Some (a, r) => a :: split_loop f r | None => [last_alias s] end
  end.
Definition unwrap_aliases (s : string) : list string :=
  map string_of_list_ascii (split_loop (String.length s) (list_ascii_of_string s)).

(** models: ltrim, rtrim, trim, fastestlapc.cpp:46-56. *)
Fixpoint ltrim (s : list ascii) : list ascii :=
  match s with
  | c :: s' => if is_space c then ltrim s' else s
  | [] => []
  end.
Fixpoint rtrim (s : list ascii) : list ascii :=
  match s with
  | [] => []
  | c :: s' => if forallb is_space s then [] else c :: rtrim s'
  end.
Definition trim (s : string) : string := string_of_list_ascii (ltrim (rtrim (list_ascii_of_string s))).

(** models: vehicle_declare_new_variable_parameter, fastestlapc.cpp:941-984: the alias text is split and the call
    of M_Store made with the result. *)
Definition declare_variable {K F T N : Type} (e : env K F T N) (s : store K F T N) (n p alias : string)
  (values : list N) (mesh : list (N * nat)) := vehicle_declare_variable e s n p (unwrap_aliases alias) values mesh.
