(** Model of the variable store behind the C API
    (src/main/c/fastestlapc.cpp).

    The five global hash maps become five finite maps of a [store]; each API
    function becomes a case of [step]. Vehicles, tracks and numbers are abstract
    types: what the C++ classes do to one vehicle or track object is a field of
    [env], and every theorem quantifies over all such functions. A call returns
    normally ([Ret]), throws ([Exc]), has undefined behaviour ([UB]), or uses a
    regular expression outside the model of M_Regex ([Unmodelled]). The exception
    text, printing and the warm-start cache are not modelled. *)
From stdpp Require Import base strings gmap list.
From Coq Require Import ZArith.
From Verif Require Import M_Regex.

(** The behaviour of the C++ objects held in the tables. A pair [(x, b)] is the
    object after the call and whether the call returned normally. *)
Record env (K F T N : Type) := Env {
  (* default constructor of limebeer2014f1_all, fastestlapc.cpp:161 *)
  e_f1_default : F;
  (* limebeer2014f1_all::set_parameter, fastestlapc.cpp:914 *)
  e_f1_set : F -> string -> N -> F * bool;
  (* add_parameter(path, alias, value), fastestlapc.cpp:928,932 *)
  e_f1_add : F -> string -> string -> N -> F * bool;
  e_kart_add : K -> string -> string -> N -> K * bool;
  (* add_parameter(path, aliases, values, mesh), fastestlapc.cpp:974,978 *)
  e_f1_addv : F -> string -> list string -> list N -> list (N * nat) -> F * bool;
  e_kart_addv : K -> string -> list string -> list N -> list (N * nat) -> K * bool;
  (* change_track on the AD and on the scalar curvilinear cars, fastestlapc.cpp:1504-1505,1747-1753 *)
  e_f1_track : F -> T -> F * bool;
  e_kart_track : K -> T -> K * bool;
  (* the polynomial and set_{left,right}_track_limit_correction, fastestlapc.cpp:1774-1779 *)
  e_track_limit : T -> bool -> list N -> list N -> T * bool;
  (* track_length, n_points and the named arrays of the preprocessor, fastestlapc.cpp:471,499-509,588 *)
  e_track_length : T -> N;
  e_track_points : T -> nat;
  e_track_data : T -> string -> option (list N)
}.
Arguments Env {_ _ _ _}.
Arguments e_f1_default {_ _ _ _}.
Arguments e_f1_set {_ _ _ _}.
Arguments e_f1_add {_ _ _ _}.
Arguments e_kart_add {_ _ _ _}.
Arguments e_f1_addv {_ _ _ _}.
Arguments e_kart_addv {_ _ _ _}.
Arguments e_f1_track {_ _ _ _}.
Arguments e_kart_track {_ _ _ _}.
Arguments e_track_limit {_ _ _ _}.
Arguments e_track_length {_ _ _ _}.
Arguments e_track_points {_ _ _ _}.
Arguments e_track_data {_ _ _ _}.

Section Store.
Context {K F T N : Type}.

(** models: the five tables, fastestlapc.cpp:31-35. *)
Record store := Store {
  t_kart   : gmap string K;
  t_f1     : gmap string F;
  t_track  : gmap string T;
  t_scalar : gmap string N;
  t_vector : gmap string (list N)
}.

Definition empty_store : store := Store ∅ ∅ ∅ ∅ ∅.

Definition set_kart (s : store) (m : gmap string K) : store :=
  Store m (t_f1 s) (t_track s) (t_scalar s) (t_vector s).
Definition set_f1 (s : store) (m : gmap string F) : store :=
  Store (t_kart s) m (t_track s) (t_scalar s) (t_vector s).
Definition set_track (s : store) (m : gmap string T) : store :=
  Store (t_kart s) (t_f1 s) m (t_scalar s) (t_vector s).
Definition set_scalar (s : store) (m : gmap string N) : store :=
  Store (t_kart s) (t_f1 s) (t_track s) m (t_vector s).
Definition set_vector (s : store) (m : gmap string (list N)) : store :=
  Store (t_kart s) (t_f1 s) (t_track s) (t_scalar s) m.

(** models: [std::unordered_map::count(name) != 0]. *)
Definition has {A} (m : gmap string A) (n : string) : bool :=
  match m !! n with Some _ => true | None => false end.

(** models: [std::unordered_map::insert], which keeps an existing binding. *)
Definition insert_new {A} (m : gmap string A) (n : string) (a : A) : gmap string A :=
  match m !! n with Some _ => m | None => <[n := a]> m end.

(** models: check_variable_exists_in_tables, fastestlapc.cpp:74-90;
    [true] when it throws. *)
Definition exists_in_tables (s : store) (n : string) : bool :=
  has (t_kart s) n || has (t_f1 s) n || has (t_track s) n || has (t_scalar s) n
  || has (t_vector s) n.

(** Results of a call. *)
Inductive value :=
| VUnit | VNum (x : N) | VVec (l : list N) | VStr (t : string) | VNat (n : nat).
Inductive result := Ret (v : value) | Exc | UB | Unmodelled.

(** What opening and reading a vehicle database file yields: nothing readable,
    or the "type" attribute together with the outcome of the two constructors
    ([None] = the constructor throws), fastestlapc.cpp:114-138. *)
Record vehicle_file := VehicleFile {
  vf_type : string;
  vf_kart : option K;
  vf_f1   : option F
}.
(** Same for a track file: the "format" attribute and the constructed track,
    fastestlapc.cpp:190-198. *)
Record track_file := TrackFile { tf_format : string; tf_track : option T }.

(** Everything [compute_optimal_laptime] (fastestlapc.cpp:1492-1714) obtains from
    its options, the solver and the vehicle before and while storing results.
    [lr_options = false] when reading the options throws (line 1501, before the
    track is set). [lr_computed = false] when it throws after setting the track and
    before its output phase (steady state, solver, writing the xml file). [lr_vector v = None] when [v] is
    neither the key, nor a state, a control or an output ([outputs_map.at]
    throws). Values are given as functions of names/indices. *)
Record laptime_run := LaptimeRun {
  lr_options     : bool;
  lr_computed    : bool;
  lr_prefix      : string;
  lr_variables   : list string;
  lr_sensitivity : bool;
  lr_aliases     : list string;
  lr_laptime     : N;
  lr_dlaptime    : nat -> N;
  lr_integral    : string -> option N;
  lr_vector      : string -> option (list N);
  lr_dvector     : string -> nat -> list N
}.

(** What circuit_preprocessor (fastestlapc.cpp:1931-2131) obtains from its
    options, the kml files and the optimisation. [pr_xml = Some b]: saving to an
    xml file was requested and returned normally iff [b]. *)
Record prep_run := PrepRun {
  pr_computed : bool;
  pr_track    : T;
  pr_table    : option string;
  pr_xml      : option bool;
  pr_prefix   : option string;
  pr_output   : string -> list N
}.

(** One constructor per API function. *)
Inductive call :=
| CreateVehicleFromXml (n : string) (file : option vehicle_file)
| CreateVehicleEmpty (n ty : string)
| CreateTrackFromXml (n : string) (file : option track_file)
| CreateScalar (n : string) (x : N)
| CreateVector (n : string) (len : Z) (data : list N)
| CopyVariable (old new : string)
| MoveVariable (old new : string)
| DeleteVariable (pattern : string)
| DownloadScalar (n : string)
| DownloadVectorSize (n : string)
| DownloadVector (n : string) (len : Z)
| TrackDownloadLength (n : string)
| TrackDownloadData (n : string) (len : Z) (variable : string)
| VariableType (n : string)
| VehicleSetParameter (n p : string) (x : N)
| VehicleDeclareConstant (n p alias : string) (x : N)
| VehicleDeclareVariable (n p : string) (aliases : list string) (values : list N) (mesh : list (N * nat))
| VehicleChangeTrack (n tr : string)
| TrackSetLimit (n side : string) (sdata wdata : list N)
| OptimalLaptime (n tr : string) (r : laptime_run)
| CircuitPreprocessor (r : prep_run)
| PropagateVehicle (n tr : string) (use_circuit ok : bool)
| SteadyState (n : string) (ok : bool)
| GgDiagram (n : string) (ok : bool).

(** models: create_vehicle_from_xml, fastestlapc.cpp:103-142. *)
Definition create_vehicle_from_xml (s : store) (n : string) (file : option vehicle_file)
  : store * result :=
  if exists_in_tables s n then (s, Exc) else
  match file with
  | None => (s, Exc)
  | Some f =>
      if String.eqb (vf_type f) "kart-6dof" then
        match vf_kart f with
        | None => (s, Exc)
        | Some k => if has (t_kart s) n then (s, Exc)
                    else (set_kart s (insert_new (t_kart s) n k), Ret VUnit)
        end
      else if String.eqb (vf_type f) "f1-3dof" then
        match vf_f1 f with
        | None => (s, Exc)
        | Some c => if has (t_f1 s) n then (s, Exc)
                    else (set_f1 s (insert_new (t_f1 s) n c), Ret VUnit)
        end
      else (s, Exc)
  end.

(** models: create_vehicle_empty, fastestlapc.cpp:145-173. *)
Definition create_vehicle_empty (e : env K F T N) (s : store) (n ty : string) : store * result :=
  if exists_in_tables s n then (s, Exc) else
  if String.eqb ty "kart-6dof" then (s, Exc)
  else if String.eqb ty "f1-3dof" then
    (set_f1 s (insert_new (t_f1 s) n (e_f1_default e)), Ret VUnit)
  else (s, Exc).

(** models: create_track_from_xml, fastestlapc.cpp:176-203. *)
Definition create_track_from_xml (s : store) (n : string) (file : option track_file)
  : store * result :=
  if exists_in_tables s n then (s, Exc) else
  match file with
  | None => (s, Exc)
  | Some f =>
      if String.eqb (tf_format f) "discrete" then
        match tf_track f with
        | None => (s, Exc)
        | Some t => (set_track s (insert_new (t_track s) n t), Ret VUnit)
        end
      else (s, Exc)
  end.

(** models: create_scalar, fastestlapc.cpp:825-837. *)
Definition create_scalar (s : store) (n : string) (x : N) : store * result :=
  if exists_in_tables s n then (s, Exc)
  else (set_scalar s (insert_new (t_scalar s) n x), Ret VUnit).

(** models: create_vector, fastestlapc.cpp:810-822. [data] is the caller's array;
    reading [data, data+len) outside of it is undefined. *)
Definition create_vector (s : store) (n : string) (len : Z) (data : list N) : store * result :=
  if exists_in_tables s n then (s, Exc)
  else if (Z.ltb len 0 || Z.ltb (Z.of_nat (length data)) len)%bool then (s, UB)
  else (set_vector s (insert_new (t_vector s) n (take (Z.to_nat len) data)), Ret VUnit).

(** models: copy_variable, fastestlapc.cpp:206-243. *)
Definition copy_variable (s : store) (old new : string) : store * result :=
  if exists_in_tables s new then (s, Exc) else
  match t_kart s !! old with
  | Some k => (set_kart s (insert_new (t_kart s) new k), Ret VUnit)
  | None =>
  match t_f1 s !! old with
  | Some c => (set_f1 s (insert_new (t_f1 s) new c), Ret VUnit)
  | None =>
  match t_track s !! old with
  | Some t => (set_track s (insert_new (t_track s) new t), Ret VUnit)
  | None =>
  match t_vector s !! old with
  | Some v => (set_vector s (insert_new (t_vector s) new v), Ret VUnit)
  | None =>
  match t_scalar s !! old with
  | Some x => (set_scalar s (insert_new (t_scalar s) new x), Ret VUnit)
  | None => (s, Exc)
  end end end end end.

(** models: move_variable, fastestlapc.cpp:245-287. *)
Definition move_variable (s : store) (old new : string) : store * result :=
  if exists_in_tables s new then (s, Exc) else
  match t_kart s !! old with
  | Some k => (set_kart s (delete old (insert_new (t_kart s) new k)), Ret VUnit)
  | None =>
  match t_f1 s !! old with
  | Some c => (set_f1 s (delete old (insert_new (t_f1 s) new c)), Ret VUnit)
  | None =>
  match t_track s !! old with
  | Some t => (set_track s (delete old (insert_new (t_track s) new t)), Ret VUnit)
  | None =>
  match t_vector s !! old with
  | Some v => (set_vector s (delete old (insert_new (t_vector s) new v)), Ret VUnit)
  | None =>
  match t_scalar s !! old with
  | Some x => (set_scalar s (delete old (insert_new (t_scalar s) new x)), Ret VUnit)
  | None => (s, Exc)
  end end end end end.

(** models: one loop of delete_variable, e.g. fastestlapc.cpp:850-857: erase every
    key matched by the expression. *)
Definition erase_matching {A} (r : re) (m : gmap string A) : gmap string A :=
  filter (fun kv => matches_name r kv.1 = false) m.

(** models: delete_variable, fastestlapc.cpp:840-904. *)
Definition delete_variable (s : store) (pattern : string) : store * result :=
  match compile pattern with
  | RError => (s, Exc)
  | RUnmodelled => (s, Unmodelled)
  | ROk r =>
      (Store (erase_matching r (t_kart s)) (erase_matching r (t_f1 s))
             (erase_matching r (t_track s)) (erase_matching r (t_scalar s))
             (erase_matching r (t_vector s)), Ret VUnit)
  end.

(** models: download_scalar, fastestlapc.cpp:647-664. *)
Definition download_scalar (s : store) (n : string) : result :=
  match t_scalar s !! n with Some x => Ret (VNum x) | None => Exc end.

(** models: download_vector_size, fastestlapc.cpp:594-612 (the conversion of the
    size to [int] is not modelled). *)
Definition download_vector_size (s : store) (n : string) : result :=
  match t_vector s !! n with Some l => Ret (VNat (length l)) | None => Exc end.

(** models: conversion [static_cast<size_t>(n)] of an [int]. *)
Definition size_of_int (n : Z) : Z := (n mod 2 ^ 64)%Z.

(** models: download_vector, fastestlapc.cpp:667-693 (values written to the
    buffer; the buffer itself is modelled in M_Buffers). *)
Definition download_vector (s : store) (n : string) (len : Z) : result :=
  match t_vector s !! n with
  | Some l => if (Z.of_nat (length l) =? size_of_int len)%Z then Ret (VVec l) else Exc
  | None => Exc
  end.

(** models: track_download_length, fastestlapc.cpp:576-591. *)
Definition track_download_length (e : env K F T N) (s : store) (n : string) : result :=
  match t_track s !! n with Some t => Ret (VNum (e_track_length e t)) | None => Exc end.

(** models: track_download_data, fastestlapc.cpp:477-573; the table of known
    variable names (499-509) is the function [e_track_data]; reading an array
    shorter than [n_points] is undefined. *)
Definition track_download_data (e : env K F T N) (s : store) (n : string) (len : Z)
  (variable : string) : result :=
  match t_track s !! n with
  | Some t =>
      if (size_of_int len =? Z.of_nat (e_track_points e t))%Z then
        match e_track_data e t variable with
        | Some l => if decide (e_track_points e t <= length l)
                    then Ret (VVec (take (e_track_points e t) l)) else UB
        | None => Exc
        end
      else Exc
  | None => Exc
  end.

(** models: variable_type, fastestlapc.cpp:615-645 (the string written). *)
Definition variable_type (s : store) (n : string) : result :=
  if has (t_f1 s) n then Ret (VStr "f1-3dof")
  else if has (t_kart s) n then Ret (VStr "kart-6dof")
  else if has (t_track s) n then Ret (VStr "track")
  else if has (t_scalar s) n then Ret (VStr "scalar")
  else if has (t_vector s) n then Ret (VStr "vector")
  else Exc.

Definition ret_or_exc (b : bool) : result := if b then Ret VUnit else Exc.

(** models: vehicle_set_parameter, fastestlapc.cpp:907-918. *)
Definition vehicle_set_parameter (e : env K F T N) (s : store) (n p : string) (x : N)
  : store * result :=
  match t_f1 s !! n with
  | Some c => let '(c', b) := e_f1_set e c p x in
              (set_f1 s (<[n := c']> (t_f1 s)), ret_or_exc b)
  | None => (s, Ret VUnit)
  end.

(** models: vehicle_declare_new_constant_parameter, fastestlapc.cpp:921-938. *)
Definition vehicle_declare_constant (e : env K F T N) (s : store) (n p alias : string) (x : N)
  : store * result :=
  match t_f1 s !! n with
  | Some c => let '(c', b) := e_f1_add e c p alias x in
              (set_f1 s (<[n := c']> (t_f1 s)), ret_or_exc b)
  | None =>
  match t_kart s !! n with
  | Some k => let '(k', b) := e_kart_add e k p alias x in
              (set_kart s (<[n := k']> (t_kart s)), ret_or_exc b)
  | None => (s, Exc)
  end end.

(** models: vehicle_declare_new_variable_parameter, fastestlapc.cpp:941-984, after the
    alias string has been split (M_Alias). *)
Definition vehicle_declare_variable (e : env K F T N) (s : store) (n p : string)
  (aliases : list string) (values : list N) (mesh : list (N * nat)) : store * result :=
  match t_f1 s !! n with
  | Some c => let '(c', b) := e_f1_addv e c p aliases values mesh in
              (set_f1 s (<[n := c']> (t_f1 s)), ret_or_exc b)
  | None =>
  match t_kart s !! n with
  | Some k => let '(k', b) := e_kart_addv e k p aliases values mesh in
              (set_kart s (<[n := k']> (t_kart s)), ret_or_exc b)
  | None => (s, Exc)
  end end.

(** models: vehicle_change_track, fastestlapc.cpp:1738-1757 ([table_track.at]
    throws when the track is missing). *)
Definition vehicle_change_track (e : env K F T N) (s : store) (n tr : string) : store * result :=
  match t_kart s !! n with
  | Some k => match t_track s !! tr with
              | None => (s, Exc)
              | Some t => let '(k', b) := e_kart_track e k t in
                          (set_kart s (<[n := k']> (t_kart s)), ret_or_exc b)
              end
  | None =>
  match t_f1 s !! n with
  | Some c => match t_track s !! tr with
              | None => (s, Exc)
              | Some t => let '(c', b) := e_f1_track e c t in
                          (set_f1 s (<[n := c']> (t_f1 s)), ret_or_exc b)
              end
  | None => (s, Ret VUnit)
  end end.

(** models: track_set_track_limit_correction, fastestlapc.cpp:1760-1784. *)
Definition track_set_limit (e : env K F T N) (s : store) (n side : string) (sd wd : list N)
  : store * result :=
  match t_track s !! n with
  | None => (s, Exc)
  | Some t =>
      if String.eqb side "left" then
        let '(t', b) := e_track_limit e t true sd wd in
        (set_track s (<[n := t']> (t_track s)), ret_or_exc b)
      else if String.eqb side "right" then
        let '(t', b) := e_track_limit e t false sd wd in
        (set_track s (<[n := t']> (t_track s)), ret_or_exc b)
      else (s, Exc)
  end.

(** models: the name of a sensitivity, [prefix + "derivatives/" + variable + "/" + alias],
    fastestlapc.cpp:1591,1613,1706. *)
Definition derivative_name (prefix v alias : string) : string :=
  prefix +:+ "derivatives/" +:+ v +:+ "/" +:+ alias.

(** models: the checks of fastestlapc.cpp:1585-1593; [true] when all names are free. *)
Definition laptime_names_free (s : store) (r : laptime_run) : bool :=
  forallb (fun v =>
    negb (exists_in_tables s (lr_prefix r +:+ v)) &&
    (negb (lr_sensitivity r) ||
     forallb (fun a => negb (exists_in_tables s (derivative_name (lr_prefix r) v a)))
             (lr_aliases r))) (lr_variables r).

Definition integral_prefix : string := "integral_quantities.".

(** models: [variable_name.find("integral_quantities.") == 0], fastestlapc.cpp:1598. *)
Definition is_integral (v : string) : bool := String.prefix integral_prefix v.

(** models: the distribution of fastestlapc.cpp:1595-1601. *)
Definition integral_variables (r : laptime_run) : list string :=
  List.filter (fun v => negb (String.eqb v "laptime") && is_integral v) (lr_variables r).
Definition vector_variables (r : laptime_run) : list string :=
  List.filter (fun v => negb (String.eqb v "laptime") && negb (is_integral v)) (lr_variables r).

(** models: fastestlapc.cpp:1604-1616. *)
Definition save_laptime (r : laptime_run) (m : gmap string N) : gmap string N :=
  if existsb (String.eqb "laptime") (lr_variables r) then
    let m1 := insert_new m (lr_prefix r +:+ "laptime") (lr_laptime r) in
    if lr_sensitivity r then
      foldl (fun m ia => insert_new m (derivative_name (lr_prefix r) "laptime" ia.2)
                                    (lr_dlaptime r ia.1))
            m1 (imap pair (lr_aliases r))
    else m1
  else m.

(** models: [integral_quantity_name.erase(0, length)], fastestlapc.cpp:1621-1622. *)
Definition integral_name (v : string) : string :=
  String.substring (String.length integral_prefix)
                   (String.length v - String.length integral_prefix) v.

(** models: fastestlapc.cpp:1619-1641; stops at the first unknown name. *)
Fixpoint save_integrals (r : laptime_run) (vs : list string) (m : gmap string N)
  : gmap string N * bool :=
  match vs with
  | [] => (m, true)
  | v :: vs' =>
      match lr_integral r (integral_name v) with
      | None => (m, false)
      | Some x => save_integrals r vs' (insert_new m (lr_prefix r +:+ v) x)
      end
  end.

(** models: fastestlapc.cpp:1644-1679; [None] when [outputs_map.at] throws. *)
Fixpoint compute_vectors (r : laptime_run) (vs : list string) : option (list (string * list N)) :=
  match vs with
  | [] => Some []
  | v :: vs' =>
      match lr_vector r v, compute_vectors r vs' with
      | Some l, Some rest => Some ((v, l) :: rest)
      | _, _ => None
      end
  end.

(** models: fastestlapc.cpp:1682-1685. *)
Definition save_vectors (r : laptime_run) (data : list (string * list N))
  (m : gmap string (list N)) : gmap string (list N) :=
  foldl (fun m vl => insert_new m (lr_prefix r +:+ vl.1) vl.2) m data.

(** models: fastestlapc.cpp:1688-1709. *)
Definition save_sensitivities (r : laptime_run) (vs : list string)
  (m : gmap string (list N)) : gmap string (list N) :=
  if lr_sensitivity r then
    foldl (fun m v =>
      foldl (fun m ia => insert_new m (derivative_name (lr_prefix r) v ia.2)
                                    (lr_dvector r v ia.1))
            m (imap pair (lr_aliases r))) m vs
  else m.

(** models: the output phase of compute_optimal_laptime, fastestlapc.cpp:1576-1709. *)
Definition store_laptime (s : store) (r : laptime_run) : store * result :=
  if laptime_names_free s r then
    let s1 := set_scalar s (save_laptime r (t_scalar s)) in
    let '(m2, ok) := save_integrals r (integral_variables r) (t_scalar s1) in
    let s2 := set_scalar s1 m2 in
    if ok then
      match compute_vectors r (vector_variables r) with
      | None => (s2, Exc)
      | Some data =>
          let s3 := set_vector s2 (save_vectors r data (t_vector s2)) in
          (set_vector s3 (save_sensitivities r (vector_variables r) (t_vector s3)), Ret VUnit)
      end
    else (s2, Exc)
  else (s, Exc).

(** models: optimal_laptime and compute_optimal_laptime, fastestlapc.cpp:1492-1735. *)
Definition optimal_laptime (e : env K F T N) (s : store) (n tr : string) (r : laptime_run)
  : store * result :=
  match t_kart s !! n with
  | Some k => match t_track s !! tr with
              | None => (s, Exc)
              | Some t => if negb (lr_options r) then (s, Exc) else
                          let '(k', b) := e_kart_track e k t in
                          let s' := set_kart s (<[n := k']> (t_kart s)) in
                          if b && lr_computed r then store_laptime s' r else (s', Exc)
              end
  | None =>
  match t_f1 s !! n with
  | Some c => match t_track s !! tr with
              | None => (s, Exc)
              | Some t => if negb (lr_options r) then (s, Exc) else
                          let '(c', b) := e_f1_track e c t in
                          let s' := set_f1 s (<[n := c']> (t_f1 s)) in
                          if b && lr_computed r then store_laptime s' r else (s', Exc)
              end
  | None => (s, Ret VUnit)
  end end.

(** models: propagate_vehicle, fastestlapc.cpp:1028-1062. [ok] is false when
    compute_propagation throws (options, non-convergence); it works on a copy of the
    car (the parameter [Vehicle_t car] is by value, fastestlapc.cpp:1000). *)
Definition propagate_vehicle (e : env K F T N) (s : store) (n tr : string) (use_circuit ok : bool)
  : store * result :=
  match t_kart s !! n with
  | Some k => if use_circuit then
                match t_track s !! tr with
                | None => (s, Exc)
                | Some t => let '(k', b) := e_kart_track e k t in
                            (set_kart s (<[n := k']> (t_kart s)), ret_or_exc (b && ok))
                end
              else (s, ret_or_exc ok)
  | None =>
  match t_f1 s !! n with
  | Some c => if use_circuit then
                match t_track s !! tr with
                | None => (s, Exc)
                | Some t => let '(c', b) := e_f1_track e c t in
                            (set_f1 s (<[n := c']> (t_f1 s)), ret_or_exc (b && ok))
                end
              else (s, ret_or_exc ok)
  | None => (s, Ret VUnit)
  end end.

(** models: steady_state and gg_diagram, fastestlapc.cpp:1064-1126: [ok] is false when the
    solver fails or throws. Steady_state keeps a copy of the car (steady_state.h). *)
Definition vehicle_solve (s : store) (n : string) (ok : bool) : store * result :=
  if has (t_kart s) n then (s, ret_or_exc ok)
  else if has (t_f1 s) n then (s, ret_or_exc ok)
  else (s, Ret VUnit).

(** models: the vectors saved by circuit_preprocessor in order,
    fastestlapc.cpp:2005-2127. *)
Definition prep_outputs : list string :=
  ["arclength"; "centerline/x"; "centerline/y"; "left/x"; "left/y"; "right/x"; "right/y";
   "left_measured/x"; "left_measured/y"; "right_measured/x"; "right_measured/y";
   "yaw_dot"; "nl"; "nr"].

(** models: fastestlapc.cpp:2003-2128: check one name, insert it, go on. *)
Fixpoint save_prep_vectors (prefix : string) (out : string -> list N) (vs : list string)
  (m : gmap string (list N)) : gmap string (list N) * bool :=
  match vs with
  | [] => (m, true)
  | v :: vs' =>
      if has m (prefix +:+ v) then (m, false)
      else save_prep_vectors prefix out vs' (insert_new m (prefix +:+ v) (out v))
  end.

(** models: fastestlapc.cpp:1987-1994, saving the track; [false] when it throws. *)
Definition prep_track_phase (s : store) (r : prep_run) : store * bool :=
  match pr_table r with
  | None => (s, true)
  | Some n => if has (t_track s) n then (s, false)
              else (set_track s (insert_new (t_track s) n (pr_track r)), true)
  end.

(** models: fastestlapc.cpp:2002-2128, saving the vectors. *)
Definition prep_vector_phase (s : store) (r : prep_run) : store * result :=
  match pr_prefix r with
  | None => (s, Ret VUnit)
  | Some p =>
      let '(m, ok) := save_prep_vectors p (pr_output r) prep_outputs (t_vector s) in
      (set_vector s m, ret_or_exc ok)
  end.

(** models: circuit_preprocessor, fastestlapc.cpp:1931-2131. *)
Definition circuit_preprocessor (s : store) (r : prep_run) : store * result :=
  if pr_computed r then
    let '(s1, ok) := prep_track_phase s r in
    if ok then
      match pr_xml r with
      | Some false => (s1, Exc)
      | _ => prep_vector_phase s1 r
      end
    else (s1, Exc)
  else (s, Exc).

(** One API call. *)
Definition step (e : env K F T N) (s : store) (c : call) : store * result :=
  match c with
  | CreateVehicleFromXml n file => create_vehicle_from_xml s n file
  | CreateVehicleEmpty n ty => create_vehicle_empty e s n ty
  | CreateTrackFromXml n file => create_track_from_xml s n file
  | CreateScalar n x => create_scalar s n x
  | CreateVector n len data => create_vector s n len data
  | CopyVariable a b => copy_variable s a b
  | MoveVariable a b => move_variable s a b
  | DeleteVariable p => delete_variable s p
  | DownloadScalar n => (s, download_scalar s n)
  | DownloadVectorSize n => (s, download_vector_size s n)
  | DownloadVector n len => (s, download_vector s n len)
  | TrackDownloadLength n => (s, track_download_length e s n)
  | TrackDownloadData n len v => (s, track_download_data e s n len v)
  | VariableType n => (s, variable_type s n)
  | VehicleSetParameter n p x => vehicle_set_parameter e s n p x
  | VehicleDeclareConstant n p a x => vehicle_declare_constant e s n p a x
  | VehicleDeclareVariable n p a v m => vehicle_declare_variable e s n p a v m
  | VehicleChangeTrack n tr => vehicle_change_track e s n tr
  | TrackSetLimit n side sd wd => track_set_limit e s n side sd wd
  | OptimalLaptime n tr r => optimal_laptime e s n tr r
  | CircuitPreprocessor r => circuit_preprocessor s r
  | PropagateVehicle n tr uc ok => propagate_vehicle e s n tr uc ok
  | SteadyState n ok | GgDiagram n ok => vehicle_solve s n ok
  end.

(** A history of calls: the final store and the results in order. *)
Fixpoint run (e : env K F T N) (s : store) (cs : list call) : store * list result :=
  match cs with
  | [] => (s, [])
  | c :: cs' =>
      let '(s1, r) := step e s c in
      let '(s2, rs) := run e s1 cs' in (s2, r :: rs)
  end.

End Store.
Arguments store : clear implicits.
Arguments call : clear implicits.
Arguments value : clear implicits.
Arguments result : clear implicits.
Arguments laptime_run : clear implicits.
Arguments prep_run : clear implicits.
Arguments vehicle_file : clear implicits.
Arguments track_file : clear implicits.
