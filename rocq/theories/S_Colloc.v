(** Specification side for the objective and the constraints of the laptime problem. *)
From Coq Require Import QArith Bool Arith List.
From Verif Require Import M_Controls M_Laptime S_Laptime.
Import ListNotations.
Local Open Scope nat_scope.

(** An element of the mesh: indices of its ends and its length. *)
Record element := MkEl { el_l : nat; el_r : nat; el_ds : Q }.

(** Consecutive points, and from the last point to the first one on closed tracks. *)
Definition inner_elements (s : list Q) : list element :=
  map (fun i => MkEl (i - 1) i (nth i s 0 - nth (i - 1) s 0)%Q) (seq 1 (length s - 1)).
Definition closing_element (L : Q) (s : list Q) : element :=
  MkEl (length s - 1) 0 (L - nth (length s - 1) s 0)%Q.
Definition elements (closed : bool) (L : Q) (s : list Q) : list element :=
  inner_elements s ++ (if closed then [closing_element L s] else []).

Fixpoint sum {A} (f : A -> Q) (l : list A) : Q :=
  match l with [] => 0%Q | a :: l' => (f a + sum f l')%Q end.

(** Quadrature of [f] with weight [sigma] on the right end of each element. *)
Definition quadrature (sigma : Q) (f : nat -> Q) (els : list element) : Q :=
  sum (fun e => el_ds e * ((1 - sigma) * f (el_l e) + sigma * f (el_r e)))%Q els.

Definition no_evaluation : evaluation := MkEval [] [] [] [].
Definition pt (evs : list evaluation) (i : nat) : evaluation := nth i evs no_evaluation.
Definition state_at (evs : list evaluation) (id i : nat) : Q := nth id (e_states (pt evs i)) 0%Q.
Definition dstate_at (evs : list evaluation) (id i : nat) : Q := nth id (e_dstates (pt evs i)) 0%Q.
Definition extra_at (evs : list evaluation) (j i : nat) : Q := nth j (e_extra (pt evs i)) 0%Q.
Definition integrand_at (evs : list evaluation) (j i : nat) : Q := nth j (e_integrands (pt evs i)) 0%Q.
(** derivative of the time with respect to the arclength *)
Definition dt_at (m : car) (evs : list evaluation) (i : nat) : Q := dstate_at evs (st_time m) i.

(** Vectors of the sizes fixed by the types of the C++ code. *)
Definition car_ok (m : car) : Prop :=
  length (differential_ids m) + length (algebraic_ids m) = n_inputs m - 1 /\
  (forall si, length (extra_lb m si) = n_extra m) /\ (forall si, length (extra_ub m si) = n_extra m).
Definition evaluation_ok (m : car) (ib : list integral_bound) (e : evaluation) : Prop :=
  (forall id, In id (st_time m :: differential_ids m ++ algebraic_ids m) ->
     id < length (e_states e) /\ id < length (e_dstates e)) /\
  length (e_extra e) = n_extra m /\ length (e_integrands e) = length ib.
Definition evaluations_ok (m : car) (ib : list integral_bound) (s : list Q) (evs : list evaluation) : Prop :=
  length evs = length s /\ forall e, In e evs -> evaluation_ok m ib e.

(** The equations of one element hold, and the extra constraints hold at its right end. *)
Definition element_satisfied (m : car) (sigma : Q) (s : list Q) (cs : list control_variable) (direct : bool)
  (evs : list evaluation) (e : element) : Prop :=
  (forall id, In id (differential_ids m) ->
     state_at evs id (el_r e) - state_at evs id (el_l e)
     == el_ds e * ((1 - sigma) * dstate_at evs id (el_l e) + sigma * dstate_at evs id (el_r e)))%Q /\
  (forall id, In id (algebraic_ids m) -> dstate_at evs id (el_r e) == 0)%Q /\
  (forall j, j < n_extra m ->
     between (nth j (extra_lb m (nth (el_r e) s 0%Q)) 0%Q, nth j (extra_ub m (nth (el_r e) s 0%Q)) 0%Q)
             (extra_at evs j (el_r e))) /\
  (direct = false -> forall c, In c cs -> c_kind c = FULL_MESH ->
     value c (el_r e) - value c (el_l e)
     == el_ds e * ((1 - sigma) * rate c (el_l e) * dt_at m evs (el_l e) + sigma * rate c (el_r e) * dt_at m evs (el_r e)))%Q.

Definition integrals_satisfied (ib : list integral_bound) (values : list Q) : Prop :=
  forall j b, nth_error ib j = Some b -> ib_restrict b = true ->
    between (ib_lower b, ib_upper b) (nth j values 0%Q).

(** Each constraint lies between its bounds. *)
Definition feasible (bs : list (Q * Q)) (cons : list Q) : Prop :=
  forall k, k < length cons -> between (nth k bs (0%Q, 0%Q)) (nth k cons 0%Q).

(** Penalties of a control over the elements. *)
Definition full_sum (cs : list control_variable) (f : control_variable -> Q) : Q :=
  sum (fun c => if kind_eqb (c_kind c) FULL_MESH then f c else 0%Q) cs.
(** squared slope of the control *)
Definition slope_penalty (els : list element) (c : control_variable) : Q :=
  sum (fun e => c_dissipation c * (((value c (el_r e) - value c (el_l e)) / el_ds e) *
                                   ((value c (el_r e) - value c (el_l e)) / el_ds e)) * el_ds e)%Q els.
(** trapezoidal quadrature of the squared derivative *)
Definition rate_penalty (els : list element) (c : control_variable) : Q :=
  sum (fun e => (1 # 2) * c_dissipation c * (rate c (el_l e) * rate c (el_l e) + rate c (el_r e) * rate c (el_r e)) * el_ds e)%Q els.

(** Closed mesh as pairs (arclength, value), the first arclength being zero, and the
    same mesh seen from its second point. *)
Definition closed_quadrature (sigma L : Q) (nodes : list (Q * Q)) : Q :=
  quadrature sigma (fun i => snd (nth i nodes (0, 0)%Q)) (elements true L (map fst nodes)).
Definition next_start (L : Q) (nodes : list (Q * Q)) : list (Q * Q) :=
  match nodes with
  | (s0, f0) :: (s1, f1) :: r => map (fun p => (fst p - s1, snd p)%Q) ((s1, f1) :: r) ++ [((s0 + L - s1)%Q, f0)]
  | _ => nodes
  end.

(** The same mesh and evaluations seen from the second point. *)
Definition shift_mesh (L : Q) (s : list Q) : list Q :=
  match s with
  | s0 :: s1 :: r => map (fun x => x - s1)%Q (s1 :: r) ++ [(s0 + L - s1)%Q]
  | _ => s
  end.
Definition rotate {A} (l : list A) : list A := match l with a :: r => r ++ [a] | [] => [] end.

(** Strictly increasing mesh. *)
Definition increasing (s : list Q) : Prop := forall i j, i < j < length s -> (nth i s 0 < nth j s 0)%Q.

(** Last pair of limits given for a name. *)
Fixpoint last_mention (x : String.string) (conf : list (String.string * (Q * Q))) : option (Q * Q) :=
  match conf with
  | [] => None
  | (y, b) :: conf' =>
      match last_mention x conf' with
      | Some b' => Some b'
      | None => if String.eqb y x then Some b else None
      end
  end.

(** The sensitivities of a fixed first point: zero at the first point, untouched elsewhere. *)
Definition first_zeroed (v v' : list Q) : Prop :=
  length v' = length v /\ forall i, i < length v -> (nth i v' 0 == if i =? 0 then 0 else nth i v 0)%Q.
Definition sensitivity_pinned (din : list (list Q)) (dcs : list control_variable) (din' : list (list Q)) (dcs' : list control_variable) : Prop :=
  (length din' = length din /\ forall i, i < length din ->
     if i =? 0 then forall x, In x (nth i din' []) -> (x == 0)%Q else nth i din' [] = nth i din []) /\
  (length dcs' = length dcs /\ forall j c c', nth_error dcs j = Some c -> nth_error dcs' j = Some c' ->
     if kind_eqb (c_kind c) FULL_MESH then first_zeroed (c_values c) (c_values c') /\ first_zeroed (c_rates c) (c_rates c')
     else c' = c).
