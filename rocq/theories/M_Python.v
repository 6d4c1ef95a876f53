(** Model of the Python module (src/main/python/fastest_lap.py) on top of the C library: the functions that store, list and download
    variables, and optimal_laptime with the names it returns. A call that raises, or whose C function throws, yields [None].
    The encoding of the names is not modelled. *)
From stdpp Require Import base strings gmap list.
From Coq Require Import ZArith Ascii.
From Verif Require Import M_Store M_Buffers.
From Verif Require M_Controls M_Options.

(** models: ctypes c_int(n): the low 32 bits, signed. *)
Definition c_int (n : Z) : Z := ((n + 2 ^ 31) mod 2 ^ 32 - 2 ^ 31)%Z.

(** models: [(" "*n).encode('utf-8')] seen as the array behind a c_char_p: n blanks and a NUL. *)
Definition blanks (n : nat) : list ascii := repeat " "%char n ++ [nul].

(** models: the attribute [value] of a c_char_p: the characters before the first NUL. *)
Fixpoint c_value (b : list ascii) : string :=
  match b with
  | [] => ""
  | a :: b' => if Ascii.eqb a nul then "" else String a (c_value b')
  end.

Section Python.
Context {K F T N : Type}.
Context (e : env K F T N) (zero : N).
Implicit Types s : store K F T N.

(** A Python number or list. *)
Inductive pyvalue := PyNum (x : N) | PyList (l : list N).

(** models: create_scalar, fastest_lap.py:72-75. *)
Definition py_create_scalar s (name : string) (x : N) : option (store K F T N) :=
  match step e s (CreateScalar name x) with (s', Ret _) => Some s' | _ => None end.

(** models: create_vector, fastest_lap.py:61-70. *)
Definition py_create_vector s (name : string) (data : list N) : option (store K F T N) :=
  match step e s (CreateVector name (c_int (Z.of_nat (length data))) data) with (s', Ret _) => Some s' | _ => None end.

(** models: variable_type, fastest_lap.py:100-107. *)
Definition py_variable_type s (name : string) : option string :=
  match variable_type_into s (blanks 99) 99 name with Done b => Some (c_value b) | _ => None end.

(** models: download_scalar, fastest_lap.py:123-125. *)
Definition py_download_scalar s (name : string) : option N :=
  match download_scalar s name with Ret (VNum x) => Some x | _ => None end.

(** models: download_vector, fastest_lap.py:131-141; an array of negative size cannot be made. *)
Definition py_download_vector s (name : string) : option (list N) :=
  match download_vector_size s name with
  | Ret (VNat k) =>
      let n := c_int (Z.of_nat k) in
      if (n <? 0)%Z then None
      else match download_vector_into s (repeat zero (Z.to_nat n)) (c_int n) name with
           | Done data => Some (take (Z.to_nat n) data)
           | _ => None
           end
  | _ => None
  end.

(** models: one turn of the loop of download_variables, fastest_lap.py:112-119. *)
Definition py_download_variable s (name : string) : option pyvalue :=
  match py_variable_type s name with
  | Some t =>
      if String.eqb t "scalar" then PyNum <$> py_download_scalar s name
      else if String.eqb t "vector" then PyList <$> py_download_vector s name
      else None
  | None => None
  end.

(** models: download_variables, fastest_lap.py:109-121: the pairs in the order they are put in the dictionary. *)
Fixpoint py_download_variables s (prefix : string) (names : list string) : option (list (string * pyvalue)) :=
  match names with
  | [] => Some []
  | v :: vs =>
      match py_download_variable s (prefix +:+ v), py_download_variables s prefix vs with
      | Some x, Some d => Some ((v, x) :: d)
      | _, _ => None
      end
  end.

(** models: vehicle_type_get_names, fastest_lap.py:155-194: the key, the states, the controls and the outputs, for the class with
    the names [v]. *)
Definition py_get_names (v : M_Options.vehicle_info) : option (list string) :=
  let names := M_Options.v_key v :: M_Options.v_inputs v ++ M_Options.v_controls v ++ M_Options.v_outputs v in
  match get_names (c_int 99) names (repeat (blanks 99) (length names)) with
  | Done bs => Some (map c_value bs)
  | _ => None
  end.

(** The names of the kart and of the car; the text conversions of lion; str.strip; the parser, taken to be the same for lion and
    for ElementTree. *)
Context (kart f1 : M_Options.vehicle_info) (rds : M_Options.readers) (strip : string -> string)
  (parse : string -> option M_Options.xml).

(** The class chosen by optimal_laptime of the C library, fastestlapc.cpp:1722-1733. *)
Definition class_of s (vehicle : string) : M_Options.vehicle_info :=
  if has (t_kart s) vehicle then kart else f1.

(** models: what compute_optimal_laptime reads from its options, fastestlapc.cpp:1500-1501; [solve] is everything else
    it computes, for a configuration; [tables] are the vectors that the options may refer to, [r0] fills the fields that
    are not used when the options are rejected. *)
Definition run_of (tables : string -> option (list QArith_base.Q)) (solve : M_Options.config -> laptime_run N) s
  (vehicle options : string) (r0 : laptime_run N) : laptime_run N :=
  match M_Options.configuration rds (class_of s vehicle) tables parse options with
  | M_Controls.Ok c =>
      let r := solve c in
      LaptimeRun true (lr_computed r) (M_Options.o_prefix c) (M_Options.o_save c) (M_Options.o_sensitivity c) (lr_aliases r)
        (lr_laptime r) (lr_dlaptime r) (lr_integral r) (lr_vector r) (lr_dvector r)
  | _ => LaptimeRun false (lr_computed r0) (lr_prefix r0) (lr_variables r0) (lr_sensitivity r0) (lr_aliases r0)
        (lr_laptime r0) (lr_dlaptime r0) (lr_integral r0) (lr_vector r0) (lr_dvector r0)
  end.

(** models: vehicle_type_get_names(variable_type(vehicle)), fastest_lap.py:324. *)
Definition py_names_of s (vehicle : string) : option (list string) :=
  match py_variable_type s vehicle with
  | Some t => if String.eqb t "f1-3dof" then py_get_names f1
              else if String.eqb t "kart-6dof" then py_get_names kart else None
  | None => None
  end.

(** models: the attribute [text] of an element: None when there is no text. *)
Definition py_text (x : M_Options.xml) : option string :=
  if String.eqb (M_Options.x_value x) "" then None else Some (M_Options.x_value x).

(** models: the names read from the options, fastest_lap.py:303-327. The local [prefix] has no value when there is no node
    output_variables; [variables_element.find('*')] is the first child, or None; [variables_list] is not defined. *)
Definition py_returned s (vehicle options : string) : option (string * list string) :=
  match parse options with
  | None => None
  | Some root =>
      match M_Options.child root "output_variables" with
      | None => None
      | Some ov =>
          let prefix := match M_Options.child ov "prefix" with Some p => py_text p | None => Some "" end in
          let names := match M_Options.child ov "variables" with
                       | Some ve => match M_Options.x_children ve with
                                    | [] => None
                                    | first :: _ => match M_Options.x_children first with [] => Some [] | _ => None end
                                    end
                       | None => py_names_of s vehicle
                       end in
          match names, prefix with
          | Some vs, Some p => Some (strip p, vs)
          | _, _ => None
          end
      end
  end.

(** models: optimal_laptime, fastest_lap.py:289-327. The result is what is returned and the store afterwards. *)
Definition py_optimal_laptime tables solve r0 s (vehicle track options : string)
  : option (string * list string * store K F T N) :=
  match step e s (OptimalLaptime vehicle track (run_of tables solve s vehicle options r0)) with
  | (s', Ret _) => match py_returned s' vehicle options with Some (p, vs) => Some (p, vs, s') | None => None end
  | _ => None
  end.

End Python.
Arguments pyvalue : clear implicits.
Arguments PyNum {_}. Arguments PyList {_}.
