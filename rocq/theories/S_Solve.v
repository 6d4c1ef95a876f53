(** Specification side of what the solver is asked and of warm starts. *)
From Coq Require Import QArith ZArith String Bool Arith List.
From Verif Require Import M_Controls M_Laptime S_Laptime S_Colloc M_Export M_Solve.
Import ListNotations.
Local Open Scope nat_scope.
Local Open Scope string_scope.

(** The text of options sets [key] to [v], once, and with the right kind of option. *)
Definition says (text : list (list string)) (kind key v : string) : Prop :=
  In [kind; key; v] text /\ forall line, In line text -> nth 1 line "" = key -> line = [kind; key; v].

(** Sizes that the C++ types guarantee: std::array members of the car, of the options and of the start. *)
Definition typed (m : car) (o : options) (p : start) : Prop :=
  sizes_ok m o /\ car_ok m /\ length (sp_controls p) = n_controls m /\
  (forall r, In r (sp_inputs p) -> length r = n_inputs m).

(** The mesh a user gives is admissible; the mesh as it is used. *)
Definition mesh_admissible (closed : bool) (L : Q) (s : list Q) : Prop :=
  2 <= length s /\
  if closed then (Qabs.Qabs (nth 0 s 0) <= 1 # 10 ^ 12 /\ nth (length s - 1) s 0 <= L - (1 # 10 ^ 10))%Q
  else (- (1 # 10 ^ 12) <= nth 0 s 0 /\ nth (length s - 1) s 0 <= L)%Q.
Definition mesh_used (closed : bool) (s : list Q) : list Q := if closed then 0%Q :: tl s else s.

(** The same controls, dissipation aside. *)
Definition same_controls (cs cs' : list control_variable) : Prop :=
  length cs' = length cs /\ forall j c c', nth_error cs j = Some c -> nth_error cs' j = Some c' ->
    c_kind c' = c_kind c /\ c_hypermesh c' = c_hypermesh c /\ c_values c' = c_values c /\ c_rates c' = c_rates c.

(** The point lies between the bounds the solver was given. *)
Definition within_request (rq : request) (x : list Q) : Prop :=
  length x = length (rq_bounds rq) /\ forall k, k < length x -> between (nth k (rq_bounds rq) (0, 0)%Q) (nth k x 0%Q).

(** The solver answers with vectors of the sizes of its problem. *)
Definition sized (solver : request -> answer) : Prop :=
  forall rq, length (aw_x (solver rq)) = length (rq_start rq) /\
    length (aw_zl (solver rq)) = length (rq_start rq) /\ length (aw_zu (solver rq)) = length (rq_start rq) /\
    length (aw_lambda (solver rq)) = length (rq_cbounds rq).

(** ** Histories *)
Section Histories.
Context {P : Type}.
(** The call was for this type of vehicle, was asked to keep its lap, and returned [l]. *)
Definition saved_by (kart : bool) (e : call P * res lap) (l : lap) : Prop :=
  cl_kart (fst e) = kart /\ cl_save (fst e) = true /\ snd e = Ok l.
Definition none_saved (kart : bool) (h : list (call P * res lap)) : Prop := forall e l, In e h -> ~ saved_by kart e l.
Definition last_saved (kart : bool) (h : list (call P * res lap)) (l : lap) : Prop :=
  exists before e after, (h = before ++ e :: after)%list /\ saved_by kart e l /\ none_saved kart after.
End Histories.

(** Two cars of the same type: the same sizes. *)
Definition same_type (m m' : car) : Prop :=
  n_inputs m' = n_inputs m /\ n_controls m' = n_controls m /\ in_time m' = in_time m /\ n_extra m' = n_extra m.
