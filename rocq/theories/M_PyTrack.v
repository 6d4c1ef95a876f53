(** Model of the functions of the Python module that read tracks and compute diagrams (src/main/python/fastest_lap.py), on top of the C
    library. A call that raises, or whose C function throws, yields [None]. *)
From stdpp Require Import base strings gmap list.
From Coq Require Import ZArith.
From Verif Require Import M_Store M_Buffers M_Python.

(** The arrays of Circuit_preprocessor that the C library gives out, circuit_preprocessor.h:150-190. A position is a triple. *)
Record survey N := Survey { p_n : nat; p_s : list N; p_yaw : list N; p_yaw_dot : list N; p_nl : list N; p_nr : list N;
                            p_centre : list (N * N * N); p_left : list (N * N * N); p_right : list (N * N * N) }.
Arguments Survey {_}. Arguments p_n {_}. Arguments p_s {_}. Arguments p_yaw {_}. Arguments p_yaw_dot {_}. Arguments p_nl {_}. Arguments p_nr {_}.
Arguments p_centre {_}. Arguments p_left {_}. Arguments p_right {_}.

Section Tables.
Context {N : Type}.
Definition px (p : N * N * N) : N := p.1.1.
Definition py (p : N * N * N) : N := p.1.2.
(** models: track_variable_map and track_vector_map, fastestlapc.cpp:499-509. *)
Definition scalar_map (p : survey N) : list (string * list N) :=
  [("arclength", p_s p); ("heading-angle", p_yaw p); ("curvature", p_yaw_dot p); ("distance-left-boundary", p_nl p); ("distance-right-boundary", p_nr p)].
Definition vector_map (p : survey N) : list (string * list (N * N * N)) := [("centerline", p_centre p); ("left", p_left p); ("right", p_right p)].
(** models: the loops over the tables, fastestlapc.cpp:517-551. *)
Fixpoint find_scalar (m : list (string * list N)) (name : string) : option (list N) :=
  match m with [] => None | (k, l) :: m' => if String.eqb name k then Some l else find_scalar m' name end.
Fixpoint find_vector (m : list (string * list (N * N * N))) (name : string) : option (list N) :=
  match m with
  | [] => None
  | (k, l) :: m' => if String.eqb name (k +:+ ".x") then Some (map px l) else if String.eqb name (k +:+ ".y") then Some (map py l) else find_vector m' name
  end.
Definition named_array (p : survey N) (name : string) : option (list N) :=
  match find_scalar (scalar_map p) name with Some l => Some l | None => find_vector (vector_map p) name end.
End Tables.

Section Python.
Context {K F T N : Type}.
Context (e : env K F T N) (zero : N).
Implicit Types s : store K F T N.

(** models: track_download_number_of_points, fastestlapc.cpp:458-474: the number of points as an int. *)
Definition track_download_number_of_points s (track : string) : option Z :=
  match t_track s !! track with Some t => Some (c_int (Z.of_nat (e_track_points e t))) | None => None end.

(** models: track_download_length, fastest_lap.py:218-220. *)
Definition py_track_download_length s (track : string) : option N :=
  match track_download_length e s track with Ret (VNum x) => Some x | _ => None end.

(** models: track_download_data, fastest_lap.py:222-234; an array of negative size cannot be made. *)
Definition py_track_download_data s (track variable : string) : option (list N) :=
  match track_download_number_of_points s track with
  | Some n =>
      if (n <? 0)%Z then None
      else match track_download_data_into e s (repeat zero (Z.to_nat n)) track (c_int n) variable with
           | Done data => Some (take (Z.to_nat n) data)
           | _ => None
           end
  | None => None
  end.

(** models: track_coordinates, fastest_lap.py:329-338. *)
Definition py_track_coordinates s (track : string) : option (list (list N)) :=
  match py_track_download_data s track "centerline.x" with None => None | Some xc =>
  match py_track_download_data s track "centerline.y" with None => None | Some yc =>
  match py_track_download_data s track "left.x" with None => None | Some xl =>
  match py_track_download_data s track "left.y" with None => None | Some yl =>
  match py_track_download_data s track "right.x" with None => None | Some xr =>
  match py_track_download_data s track "right.y" with None => None | Some yr =>
  match py_track_download_data s track "heading-angle" with None => None | Some th => Some [xc; yc; xl; yl; xr; yr; th]
  end end end end end end end.

(** A solution of the steady state problem: lateral and longitudinal accelerations, steady_state.h. *)
Context (kart_gg : K -> N -> Z -> option (list (N * N) * list (N * N))) (f1_gg : F -> N -> Z -> option (list (N * N) * list (N * N))).

(** models: compute_gg_diagram, fastestlapc.cpp:1096-1108: [sol] are the solutions, [None] when Steady_state::gg_diagram throws. *)
Definition compute_gg (sol : option (list (N * N) * list (N * N))) (n : Z) (ay ax_max ax_min : list N) : outcome (list N * list N * list N) :=
  match sol with
  | None => Threw (ay, ax_max, ax_min)
  | Some (smax, smin) =>
      let k := Z.to_nat n in
      if decide (k <= length smax /\ k <= length smin) then
        match write_all (map fst (take k smax)) ay, write_all (map snd (take k smax)) ax_max, write_all (map snd (take k smin)) ax_min with
        | Some a, Some b, Some c => Done (a, b, c)
        | _, _, _ => OutOfBounds
        end
      else OutOfBounds
  end.
(** models: gg_diagram, fastestlapc.cpp:1111-1126: nothing is done for a name that is not that of a vehicle. *)
Definition gg_diagram_into s (ay ax_max ax_min : list N) (vehicle : string) (v : N) (n : Z) : outcome (list N * list N * list N) :=
  match t_kart s !! vehicle with
  | Some k => compute_gg (kart_gg k v n) n ay ax_max ax_min
  | None => match t_f1 s !! vehicle with
            | Some c => compute_gg (f1_gg c v n) n ay ax_max ax_min
            | None => Done (ay, ax_max, ax_min)
            end
  end.

(** models: gg_diagram, fastest_lap.py:270-287. [per_g] divides by 9.81, [neg] changes the sign. *)
Context (per_g neg : N -> N).
Definition py_gg_diagram s (vehicle : string) (speed : N) (n : Z) : option (list N * list N * list N * list N) :=
  if (n <? 0)%Z then None
  else let z := repeat zero (Z.to_nat n) in
       match gg_diagram_into s z z z vehicle speed (c_int n) with
       | Done (a, b, c) =>
           let ay := map per_g (take (Z.to_nat n) a) in
           Some (ay, map neg ay, map per_g (take (Z.to_nat n) b), map per_g (take (Z.to_nat n) c))
       | _ => None
       end.

(** models: vehicle_get_output, fastest_lap.py:196-209. [c_output] is vehicle_get_output of the C library, fastestlapc.cpp:414-432. The
    result of the C function is dropped: a call that does not raise returns None, here [Some None]. *)
Definition py_vehicle_get_output (c_output : store K F T N -> string -> list N -> list N -> N -> string -> option N)
  s (vehicle : string) (q u : list N) (x : N) (name : string) : option (option N) :=
  match c_output s vehicle q u x name with Some _ => Some None | None => None end.
End Python.
