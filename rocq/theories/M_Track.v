(** Model of the discrete circuit as a file (Circuit_preprocessor::Circuit_preprocessor(Xml_document&)
    and Circuit_preprocessor::xml, src/core/applications/circuit_preprocessor.hpp:64-258 and
    762-1086) and of the track built from it (src/core/vehicles/track_by_polynomial.hpp:78-153).
    Numbers are exact rationals instead of doubles. Texts written with 17 digits read back as
    the same number; std::to_string writes six decimals. The GPS parameters are left out. *)
From Coq Require Import String QArith Qround ZArith Bool Arith List.
From Verif Require Import M_Controls M_Kerb M_Mesh.
Import ListNotations.
Local Open Scope Q_scope.

(** models: the data members of Circuit_preprocessor, circuit_geometry.h:6-40 and
    circuit_preprocessor.h:27-53, 214-231. *)
Record circuit := MkCircuit {
  ci_closed : bool;
  ci_elevation : bool;               (** options.with_elevation *)
  ci_length : Q;                     (** track_length *)
  ci_errors : Q * Q * Q * Q;         (** left and right L2 errors, left and right maximum errors *)
  ci_costs : Q * Q * Q * Q;          (** eps_k, eps_n, eps_d, eps_c *)
  ci_elevation_costs : Q * Q;        (** eps_pitch, eps_roll *)
  ci_maxima : Q * Q;                 (** maximum_yaw_dot, maximum_dyaw_dot *)
  ci_n : nat;                        (** n_points *)
  ci_s : list Q;
  ci_center : list point;
  ci_left : list point;
  ci_right : list point;
  ci_left_measured : list point;
  ci_right_measured : list point;
  ci_yaw : list Q;  ci_pitch : list Q;  ci_roll : list Q;
  ci_dyaw : list Q; ci_dpitch : list Q; ci_droll : list Q;       (** yaw_dot, pitch_dot, roll_dot *)
  ci_nl : list Q; ci_nr : list Q;
  ci_d2yaw : list Q; ci_d2pitch : list Q; ci_d2roll : list Q;    (** dyaw_dot, dpitch_dot, droll_dot *)
  ci_dnl : list Q; ci_dnr : list Q;
  ci_direction : Z;                  (** COUNTERCLOCKWISE = 1, CLOCKWISE = -1, 0 if open *)
  ci_kerbs : bool;                   (** options.compute_kerbs *)
  ci_left_kerb : list kerb;
  ci_right_kerb : list kerb }.

(** models: the XML tree: attributes of the root, number_of_points, the numeric children by
    path, and the two kerb tables if there is a "kerbs" child. *)
Record doc := MkDoc {
  d_type : string;
  d_dimensions : string;
  d_n : nat;
  d_fields : list (string * list Q);
  d_kerbs : option (list kerb * list kerb) }.

(** models: std::to_string(double), six decimals, round half to even (C library). *)
Definition round6 (x : Q) : Q :=
  let y := x * inject_Z (10 ^ 6) in
  let f := Qfloor y in
  let r := y - inject_Z f in
  let z := if Qlt_bool r (1 # 2) then f
           else if Qlt_bool (1 # 2) r then (f + 1)%Z
           else if Z.even f then f else (f + 1)%Z in
  inject_Z z / inject_Z (10 ^ 6).

(** models: the loops "for (i = 0; i < n_points-1; ++i) s_out << v[i] << sep; s_out << v.back();"
    of xml(), e.g. circuit_preprocessor.hpp:842-844. n_points - 1 is unsigned: with n_points = 0
    the loop runs past the end. *)
Definition write_vector {A} (n : nat) (v : list A) : res (list A) :=
  match n with
  | O => UB
  | S m => bind (all_ok (map (rd v) (seq 0%nat m))) (fun l => bind (rd v (length v - 1)%nat) (fun b => Ok (l ++ [b])))
  end.

Definition px (p : point) : Q := fst (fst p).
Definition py (p : point) : Q := snd (fst p).
Definition pz (p : point) : Q := snd p.

(** models: one boundary of xml(), e.g. circuit_preprocessor.hpp:849-873: x, y and z. *)
Definition write_points (n : nat) (name : string) (v : list point) : res (list (string * list Q)) :=
  bind (write_vector n (map px v)) (fun x => bind (write_vector n (map py v)) (fun y => bind (write_vector n (map pz v)) (fun z =>
  Ok [((name ++ "/x")%string, x); ((name ++ "/y")%string, y); ((name ++ "/z")%string, z)]))).

Definition write_field (n : nat) (name : string) (v : list Q) : res (list (string * list Q)) :=
  bind (write_vector n v) (fun x => Ok [(name, x)]).

Fixpoint concat_res {A} (l : list (res (list A))) : res (list A) :=
  match l with
  | [] => Ok []
  | r :: l' => bind r (fun a => bind (concat_res l') (fun t => Ok (a ++ t)))
  end.

(** models: Kerb::xml, kerb.h:175-188: everything but the flag goes through std::to_string. *)
Definition write_kerb (k : kerb) : kerb := MkKerb (round6 (k_start k)) (round6 (k_finish k)) (round6 (k_width k)) (k_used k).

Local Open Scope string_scope.
(** models: Circuit_preprocessor::xml, circuit_preprocessor.hpp:762-1086. *)
Definition save (c : circuit) : res doc :=
  let n := ci_n c in
  let '(e1, e2, e3, e4) := ci_errors c in
  let '(k1, k2, k3, k4) := ci_costs c in
  bind (concat_res
    [ Ok [("header/track_length", [ci_length c]); ("header/L2_error_left", [e1]); ("header/L2_error_right", [e2]);
          ("header/max_error_left", [e3]); ("header/max_error_right", [e4]);
          ("optimization/cost_curvature", [round6 k1]); ("optimization/cost_track_limits_smoothness", [round6 k2]);
          ("optimization/cost_track_limits_errors", [round6 k3]); ("optimization/cost_centerline", [round6 k4]);
          ("optimization/cost_pitch", [round6 (fst (ci_elevation_costs c))]); ("optimization/cost_roll", [round6 (snd (ci_elevation_costs c))]);
          ("optimization/maximum_yaw_dot", [round6 (fst (ci_maxima c))]); ("optimization/maximum_dyaw_dot", [round6 (snd (ci_maxima c))])];
      write_field n "data/arclength" (ci_s c);
      write_points n "data/centerline" (ci_center c);
      write_points n "data/left_boundary" (ci_left c);
      write_points n "data/right_boundary" (ci_right c);
      write_points (length (ci_left_measured c)) "data/left_measured_boundary" (ci_left_measured c);
      write_points (length (ci_right_measured c)) "data/right_measured_boundary" (ci_right_measured c);
      write_field n "data/yaw" (ci_yaw c);
      write_field n "data/pitch" (ci_pitch c);
      write_field n "data/roll" (ci_roll c);
      write_field n "data/yaw_dot" (ci_dyaw c);
      write_field n "data/pitch_dot" (ci_dpitch c);
      write_field n "data/roll_dot" (ci_droll c);
      write_field n "data/nl" (ci_nl c);
      write_field n "data/nr" (ci_nr c);
      write_field n "data/dyaw_dot" (ci_d2yaw c);
      write_field n "data/dpitch_dot" (ci_d2pitch c);
      write_field n "data/droll_dot" (ci_d2roll c);
      write_field n "data/dnl" (ci_dnl c);
      write_field n "data/dnr" (ci_dnr c) ])
  (fun fs => Ok (MkDoc (if ci_closed c then "closed" else "open") (if ci_elevation c then "3" else "2") n fs
                       (if ci_kerbs c then Some (map write_kerb (ci_left_kerb c), map write_kerb (ci_right_kerb c)) else None))).

(** models: Xml_element::get_child(path).get_value(...) of lion: throws if there is no such child. *)
Fixpoint field (fs : list (string * list Q)) (name : string) : res (list Q) :=
  match fs with
  | [] => Throw
  | (k, v) :: fs' => if String.eqb k name then Ok v else field fs' name
  end.
Definition number (fs : list (string * list Q)) (name : string) : res Q :=
  bind (field fs name) (fun v => match v with q :: _ => Ok q | [] => Throw end).

(** models: the loops "r[i] = sVector3d(x[i], y[i], z[i])", circuit_preprocessor.hpp:150-152. *)
Definition read_points (n : nat) (x y z : list Q) : res (list point) :=
  all_ok (map (fun i => bind (rd x i) (fun a => bind (rd y i) (fun b => bind (rd z i) (fun c => Ok (a, b, c))))) (seq 0%nat n)).

(** models: circuit_preprocessor.hpp:64-258. The coordinate z is 0 for 2D files; the measured
    boundaries have as many points as their x (the asserts on the sizes are off in a release
    build). *)
Definition load (d : doc) : res circuit :=
  bind (if String.eqb (d_type d) "closed" then Ok true else if String.eqb (d_type d) "open" then Ok false else Throw) (fun closed =>
  bind (if String.eqb (d_dimensions d) "2" then Ok false else if String.eqb (d_dimensions d) "3" then Ok true else Throw) (fun elev =>
  let fs := d_fields d in
  let n := d_n d in
  let zs name k := if elev then field fs name else Ok (repeat 0%Q k) in
  let pts name k := bind (field fs (name ++ "/x")) (fun x => bind (field fs (name ++ "/y")) (fun y =>
                    bind (zs (name ++ "/z") (match k with Some m => m | None => length x end)) (fun z =>
                    read_points (match k with Some m => m | None => length x end) x y z))) in
  let opt name := if elev then field fs name else Ok [] in
  bind (number fs "header/track_length") (fun len =>
  bind (number fs "header/L2_error_left") (fun e1 => bind (number fs "header/L2_error_right") (fun e2 =>
  bind (number fs "header/max_error_left") (fun e3 => bind (number fs "header/max_error_right") (fun e4 =>
  bind (number fs "optimization/cost_curvature") (fun k1 => bind (number fs "optimization/cost_track_limits_smoothness") (fun k2 =>
  bind (number fs "optimization/cost_track_limits_errors") (fun k3 => bind (number fs "optimization/cost_centerline") (fun k4 =>
  bind (number fs "optimization/maximum_yaw_dot") (fun m1 => bind (number fs "optimization/maximum_dyaw_dot") (fun m2 =>
  bind (if elev then bind (number fs "optimization/cost_pitch") (fun a => bind (number fs "optimization/cost_roll") (fun b => Ok (a, b))) else Ok (1000000%Q, 1000000%Q)) (fun ec =>
  bind (field fs "data/arclength") (fun s =>
  bind (pts "data/centerline" (Some n)) (fun ce => bind (pts "data/left_boundary" (Some n)) (fun l => bind (pts "data/right_boundary" (Some n)) (fun r =>
  bind (pts "data/left_measured_boundary" None) (fun lm => bind (pts "data/right_measured_boundary" None) (fun rm =>
  bind (field fs "data/yaw") (fun yaw => bind (opt "data/pitch") (fun pitch => bind (opt "data/roll") (fun roll =>
  bind (field fs "data/yaw_dot") (fun dyaw => bind (opt "data/pitch_dot") (fun dpitch => bind (opt "data/roll_dot") (fun droll =>
  bind (field fs "data/nl") (fun nl => bind (field fs "data/nr") (fun nr =>
  bind (field fs "data/dyaw_dot") (fun d2yaw => bind (opt "data/dpitch_dot") (fun d2pitch => bind (opt "data/droll_dot") (fun d2roll =>
  bind (field fs "data/dnl") (fun dnl => bind (field fs "data/dnr") (fun dnr =>
  bind (if closed then bind (rd yaw (length yaw - 1)%nat) (fun b => bind (rd yaw 0%nat) (fun f => Ok (if Qlt_bool f b then 1%Z else (-1)%Z))) else Ok 0%Z) (fun dir =>
  Ok (MkCircuit closed elev len (e1, e2, e3, e4) (k1, k2, k3, k4) ec (m1, m2) n s ce l r lm rm yaw pitch roll dyaw dpitch droll nl nr d2yaw d2pitch d2roll dnl dnr dir
        (match d_kerbs d with Some _ => true | None => false end)
        (match d_kerbs d with Some (a, _) => a | None => [] end)
        (match d_kerbs d with Some (_, b) => b | None => [] end)))))))))))))))))))))))))))))))))))).

Local Open Scope Q_scope.
Definition eps12 : Q := 1 # 10 ^ 12.

(** models: the inner loops over the kerbs, track_by_polynomial.hpp:94-107: the first used kerb
    that contains the point adds its width. *)
Fixpoint kerb_widening (ks : list kerb) (s : Q) : Q :=
  match ks with
  | [] => 0
  | k :: ks' =>
      if (Qlt_bool (k_start k - eps12) s && Qlt_bool s (k_finish k + eps12) && k_used k)%bool
      then k_width k else kerb_widening ks' s
  end.

(** models: track_by_polynomial.hpp:92-108: nl[i_s] is read for every i_s < s.size(). *)
Definition widen (ks : list kerb) (s w : list Q) : res (list Q) :=
  bind (all_ok (map (rd w) (seq 0%nat (length s)))) (fun _ =>
  Ok (map (fun p => snd p + kerb_widening ks (fst p)) (combine s w) ++ skipn (length s) w)%list).

(** models: v.push_back(v.front()), track_by_polynomial.hpp:111-127. *)
Definition push_front {A} (v : list A) : res (list A) := bind (rd v 0%nat) (fun a => Ok (v ++ [a])%list).
Definition close_vector {A} (b : bool) (v : list A) : res (list A) := if b then push_front v else Ok v.

(** Piecewise linear polynomial of lion, { s, v, 1, false }: sizes must agree. *)
Definition table (s v : list Q) : res (list (Q * Q)) :=
  if Nat.eqb (length s) (length v) then Ok (combine s v) else Throw.

(** models: the data members of Track_by_polynomial, track_by_polynomial.h:64-86; zero
    polynomials as empty tables. *)
Record track := MkTrack {
  t_x : list (Q * Q); t_y : list (Q * Q); t_z : list (Q * Q);
  t_yaw : list (Q * Q); t_pitch : list (Q * Q); t_roll : list (Q * Q);
  t_dyaw : list (Q * Q); t_dpitch : list (Q * Q); t_droll : list (Q * Q);
  t_wl : list (Q * Q); t_wr : list (Q * Q) }.

(** models: Track_by_polynomial(const Circuit_preprocessor&), track_by_polynomial.hpp:78-153. *)
Definition make_track (c : circuit) : res track :=
  bind (widen (ci_left_kerb c) (ci_s c) (ci_nl c)) (fun nl =>
  bind (widen (ci_right_kerb c) (ci_s c) (ci_nr c)) (fun nr =>
  let b := ci_closed c in
  let b3 := (ci_closed c && ci_elevation c)%bool in
  let s := if ci_closed c then (ci_s c ++ [ci_length c])%list else ci_s c in
  bind (close_vector b (ci_center c)) (fun r => bind (close_vector b (ci_yaw c)) (fun yaw => bind (close_vector b (ci_dyaw c)) (fun dyaw =>
  bind (close_vector b nl) (fun nl => bind (close_vector b nr) (fun nr =>
  bind (close_vector b3 (ci_pitch c)) (fun pitch => bind (close_vector b3 (ci_roll c)) (fun roll =>
  bind (close_vector b3 (ci_d2pitch c)) (fun dpitch => bind (close_vector b3 (ci_d2roll c)) (fun droll =>
  let tab3 v := if ci_elevation c then table s v else Ok [] in
  bind (table s (map px r)) (fun tx => bind (table s (map py r)) (fun ty => bind (table s (map pz r)) (fun tz =>
  bind (table s yaw) (fun tyaw => bind (table s dyaw) (fun tdyaw => bind (table s nl) (fun twl => bind (table s nr) (fun twr =>
  bind (tab3 pitch) (fun tp => bind (tab3 roll) (fun tr => bind (tab3 dpitch) (fun tdp => bind (tab3 droll) (fun tdr =>
  Ok (MkTrack tx ty tz tyaw tp tr tdyaw tdp tdr twl twr))))))))))))))))))))))).

(** models: Frenet_frame operator()(s), track_by_polynomial.h:44, and the track limits without
    the optional corrections, track_by_polynomial.h:28-30. *)
Definition t_position (t : track) (s : Q) : point := (pwl (t_x t) s, pwl (t_y t) s, pwl (t_z t) s).
Definition t_angles (t : track) (s : Q) : Q * Q * Q := (pwl (t_yaw t) s, pwl (t_pitch t) s, pwl (t_roll t) s).
Definition t_rates (t : track) (s : Q) : Q * Q * Q := (pwl (t_dyaw t) s, pwl (t_dpitch t) s, pwl (t_droll t) s).
Definition t_left_limit (t : track) (s : Q) : Q := pwl (t_wl t) s.
Definition t_right_limit (t : track) (s : Q) : Q := pwl (t_wr t) s.
