(** Model of the calls of the C API that answer questions about the stored variables
    (src/main/c/fastestlapc.cpp): the listing on the terminal, the text of one variable, an
    output of a vehicle at a state, and the file of a vehicle. *)
From stdpp Require Import base strings gmap list.
From Coq Require Import ZArith Ascii.
From Verif Require Import M_Store.

Definition newline : string := String "010"%char EmptyString.
(** models: [std::cout << t << std::endl]. *)
Definition line (t : string) : string := t +:+ newline.

(** What the objects answer. [qe_inputs], [qe_controls]: number_of_inputs, number_of_controls of the class;
    [eval]: operator()(q,u,s), which changes members of the object; [outputs]: get_outputs_map();
    [xml]: the text of xml()->print or of the file written by xml()->save. *)
Record qenv (K F T N : Type) := QEnv {
  q_kart_inputs : nat; q_kart_controls : nat; q_f1_inputs : nat; q_f1_controls : nat;
  q_kart_eval : K -> list N -> list N -> N -> K;
  q_f1_eval : F -> list N -> list N -> N -> F;
  q_kart_outputs : K -> gmap string N;
  q_f1_outputs : F -> gmap string N;
  q_kart_xml : K -> string; q_f1_xml : F -> string; q_track_xml : T -> string;
  (* operator<< of a vector, of a number and of a size *)
  q_show_vector : list N -> string; q_show_number : N -> string; q_show_size : nat -> string
}.
Arguments QEnv {_ _ _ _}.
Arguments q_kart_inputs {_ _ _ _}. Arguments q_kart_controls {_ _ _ _}.
Arguments q_f1_inputs {_ _ _ _}. Arguments q_f1_controls {_ _ _ _}.
Arguments q_kart_eval {_ _ _ _}. Arguments q_f1_eval {_ _ _ _}.
Arguments q_kart_outputs {_ _ _ _}. Arguments q_f1_outputs {_ _ _ _}.
Arguments q_kart_xml {_ _ _ _}. Arguments q_f1_xml {_ _ _ _}. Arguments q_track_xml {_ _ _ _}.
Arguments q_show_vector {_ _ _ _}. Arguments q_show_number {_ _ _ _}. Arguments q_show_size {_ _ _ _}.

Section Query.
Context {K F T N : Type}.
Notation store := (store K F T N).
Implicit Types (qe : qenv K F T N) (s : store).

(** models: the header of a section, e.g. fastestlapc.cpp:294. *)
Definition header qe (type : string) (size : nat) : string :=
  "Type " +:+ type +:+ ": " +:+ q_show_size qe size +:+ " variables".
(** models: the line of a variable, e.g. fastestlapc.cpp:297. *)
Definition entry (name : string) : string := "    -> " +:+ name.
(** models: the line of a vector, fastestlapc.cpp:321. *)
Definition vector_entry qe (name : string) (size : nat) : string :=
  "    -> " +:+ name +:+ " (" +:+ q_show_size qe size +:+ ")".

(** models: print_variables, fastestlapc.cpp:290-324, the lines sent to the terminal when the loops over
    the five tables meet their elements in the orders [lk] to [lv]. *)
Definition print_lines qe (lk lf lt ls : list string) (lv : list (string * list N)) : list string :=
  header qe "kart_6dof" (length lk) :: (entry <$> lk) ++ [EmptyString] ++
  header qe "f1_3dof" (length lf) :: (entry <$> lf) ++ [EmptyString] ++
  header qe "tracks" (length lt) :: (entry <$> lt) ++ [EmptyString] ++
  header qe "scalar" (length ls) :: (entry <$> ls) ++ [EmptyString] ++
  header qe "vector" (length lv) :: ((fun nv => vector_entry qe nv.1 (length nv.2)) <$> lv).

Fixpoint concat_lines (l : list string) : string :=
  match l with [] => EmptyString | t :: l' => line t +:+ concat_lines l' end.

(** models: the iteration over an unordered_map: every element once, in any order. *)
Definition iterates {A} (m : gmap string A) (l : list (string * A)) : Prop := l ≡ₚ map_to_list m.

(** [print_variables] can send [text] to the terminal. *)
Definition prints qe s (text : string) : Prop :=
  exists lk lf lt ls lv,
    iterates (t_kart s) lk /\ iterates (t_f1 s) lf /\ iterates (t_track s) lt /\
    iterates (t_scalar s) ls /\ iterates (t_vector s) lv /\
    text = concat_lines (print_lines qe lk.*1 lf.*1 lt.*1 ls.*1 lv).

(** Answers of the calls below: the result of a call of M_Store, a text, or a file written. *)
Inductive qresult := QRet (r : result N) | QText (t : string) | QFile (name text : string).

(** models: print_variable_to_std_string, fastestlapc.cpp:326-354; the buffer of
    print_variable_to_string is in M_Buffers. [table_vector[name]] finds the element, so nothing is inserted. *)
Definition print_variable qe s (n : string) : qresult :=
  match t_kart s !! n with Some k => QText (q_kart_xml qe k) | None =>
  match t_f1 s !! n with Some c => QText (q_f1_xml qe c) | None =>
  match t_track s !! n with Some t => QText (q_track_xml qe t) | None =>
  match t_vector s !! n with Some l => QText (q_show_vector qe l) | None =>
  match t_scalar s !! n with Some x => QText (q_show_number qe x) | None => QRet Exc
  end end end end end.

(** models: vehicle_get_property_generic, fastestlapc.cpp:390-412: [q], [u] are the arrays of the
    caller; the vehicle is changed by its evaluation. *)
Definition get_property {V} (n_inputs n_controls : nat) (eval : V -> list N -> list N -> N -> V)
  (outputs : V -> gmap string N) (v : V) (q u : list N) (pos : N) (p : string) : V * result N :=
  if (length q <? n_inputs) || (length u <? n_controls) then (v, UB)
  else
    let v' := eval v (take n_inputs q) (take n_controls u) pos in
    (v', match outputs v' !! p with Some x => Ret (VNum x) | None => Exc end).

(** models: vehicle_get_output, fastestlapc.cpp:414-433: the vehicle in the table is the one that is evaluated. *)
Definition vehicle_get_output qe s (n : string) (q u : list N) (pos : N) (p : string) : store * qresult :=
  match t_kart s !! n with
  | Some k => let '(k', r) := get_property (q_kart_inputs qe) (q_kart_controls qe) (q_kart_eval qe)
                                (q_kart_outputs qe) k q u pos p in
              (set_kart s (<[n := k']> (t_kart s)), QRet r)
  | None =>
  match t_f1 s !! n with
  | Some c => let '(c', r) := get_property (q_f1_inputs qe) (q_f1_controls qe) (q_f1_eval qe)
                                (q_f1_outputs qe) c q u pos p in
              (set_f1 s (<[n := c']> (t_f1 s)), QRet r)
  | None => (s, QRet Exc)
  end end.

(** models: vehicle_save_as_xml, fastestlapc.cpp:436-454. *)
Definition vehicle_save_as_xml qe s (n file : string) : qresult :=
  match t_kart s !! n with Some k => QFile file (q_kart_xml qe k) | None =>
  match t_f1 s !! n with Some c => QFile file (q_f1_xml qe c) | None => QRet Exc
  end end.

(** A call of a program: one of M_Store, whose arguments (such as the lap found by the solver) may be
    computed from the variables, or one of this file. *)
Inductive qcall :=
| Api (c : store -> call K F T N)
| PrintVariable (n : string)
| GetOutput (n : string) (q u : list N) (pos : N) (p : string)
| SaveAsXml (n file : string).

Definition qstep (e : env K F T N) qe s (c : qcall) : store * qresult :=
  match c with
  | Api c => let '(s', r) := step e s (c s) in (s', QRet r)
  | PrintVariable n => (s, print_variable qe s n)
  | GetOutput n q u pos p => vehicle_get_output qe s n q u pos p
  | SaveAsXml n file => (s, vehicle_save_as_xml qe s n file)
  end.

Fixpoint qrun (e : env K F T N) qe s (cs : list qcall) : store :=
  match cs with [] => s | c :: cs' => qrun e qe (qstep e qe s c).1 cs' end.
End Query.
Arguments qcall : clear implicits.
Arguments qresult : clear implicits.
