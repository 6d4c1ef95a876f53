(** Track limits with the corrections a user gives them, as a track of the variable store
    (M_Store, M_Fleet). The polynomials are those of lion: built from two vectors or throwing,
    and evaluated. *)
From stdpp Require Import base strings gmap list.
From Verif Require Import M_Store M_Fleet.

Section Limits.
Context {N P B : Type} (plus : N -> N -> N).
(** lion: sPolynomial(s, w, 1, false), operator() and the default constructor. *)
Context (poly : list N -> list N -> option P) (eval : P -> N -> N) (nopoly : P).

(** models: the data members of Track_by_polynomial, track_by_polynomial.h:67-88; [tk_rest] is
    everything but the limits: position, angles, curvatures and the preprocessor. *)
Record ltrack := LTrack { tk_rest : B; tk_wl : P; tk_wr : P; tk_wl_correction : P; tk_wr_correction : P }.

(** models: the constructors, track_by_polynomial.hpp:17-153: the corrections are default
    constructed. *)
Definition new_ltrack (b : B) (wl wr : P) : ltrack := LTrack b wl wr nopoly nopoly.

(** models: set_left_track_limit_correction, set_right_track_limit_correction,
    track_by_polynomial.h:25-27. *)
Definition set_left_correction (t : ltrack) (q : P) : ltrack :=
  LTrack (tk_rest t) (tk_wl t) (tk_wr t) q (tk_wr_correction t).
Definition set_right_correction (t : ltrack) (q : P) : ltrack :=
  LTrack (tk_rest t) (tk_wl t) (tk_wr t) (tk_wl_correction t) q.

(** models: get_left_track_limit, get_right_track_limit, track_by_polynomial.h:29-31. *)
Definition left_track_limit (t : ltrack) (s : N) : N := plus (eval (tk_wl t) s) (eval (tk_wl_correction t) s).
Definition right_track_limit (t : ltrack) (s : N) : N := plus (eval (tk_wr t) s) (eval (tk_wr_correction t) s).

(** models: the polynomial and the call of fastestlapc.cpp:1770-1779; the polynomial is built
    first. *)
Definition correct_limit (t : ltrack) (left : bool) (sd wd : list N) : ltrack * bool :=
  match poly sd wd with
  | None => (t, false)
  | Some q => (if left then set_left_correction t q else set_right_correction t q, true)
  end.

(** The parts of M_Fleet with such tracks: elevation, length and arrays are read from the
    polynomials of position and angles and from the preprocessor
    (track_by_polynomial.hpp:157-171, fastestlapc.cpp:471-588). *)
Definition with_limits {M} (p : parts M B N) (t0 : ltrack) : parts M ltrack N :=
  Parts (p_default p) t0 (p_set p) (p_add p) (p_addv p)
        (fun t => p_elevated p (tk_rest t)) correct_limit
        (fun t => p_length p (tk_rest t)) (fun t => p_points p (tk_rest t)) (fun t => p_data p (tk_rest t)).
End Limits.
Arguments ltrack : clear implicits.
Arguments LTrack {_ _}.
