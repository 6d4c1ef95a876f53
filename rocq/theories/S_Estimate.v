(** Specification side for the initial estimate of the circuit. *)
From Coq Require Import Reals List.
From Verif Require Import M_Vec M_Road S_Road.
Import ListNotations.
Local Open Scope R_scope.

(** [t] points from [a] to [b]. *)
Definition points_to (t a b : vec) : Prop := exists k, 0 < k /\ vsub b a = vscale k t.

(** The point that follows the [i]th of a track; on an open track the last point is approached
    from the one before. *)
Definition along (closed : bool) (r : list vec) (i : nat) (t : vec) : Prop :=
  let n := length r in
  if (i =? n - 1)%nat
  then if closed then points_to t (nth i r vzero) (nth 0 r vzero) else points_to t (nth (i - 1) r vzero) (nth i r vzero)
  else points_to t (nth i r vzero) (nth (S i) r vzero).

(** The road frame with angles [e] is laid on the track: its tangent points along the track, its normal
    is the direction of the right limit seen across the tangent, and the right limit is
    in the plane of the road. *)
Definition laid_on (closed : bool) (r right : list vec) (i : nat) (e : euler) : Prop :=
  along closed r i (tangent e) /\
  dot (nth i right vzero) (binormal e) = 0 /\ 0 < dot (nth i right vzero) (normal e).

(** Length of the element that starts at point [i]: the difference of arclengths and, for the
    last, [gap]. *)
Definition element_length (s : list R) (gap : R) (i : nat) : R :=
  if (i =? length s - 1)%nat then gap else nth (S i) s 0 - nth i s 0.
(** Sum over the first [n] elements. *)
Fixpoint total (f : nat -> R) (n : nat) : R := match n with O => 0 | S n' => total f n' + f n' end.

(** [d] are slopes of [v]: with them each point leads to the next one; on a closed track the last
    point leads to the first value plus [turn], and the slopes over the whole lap add up to
    [turn]; on an open track the last slope is the one before. *)
Definition slopes (closed : bool) (turn gap : R) (s v d : list R) : Prop :=
  length d = length v /\
  (forall i, (S i < length v)%nat -> nth (S i) v 0 = nth i v 0 + element_length s gap i * nth i d 0) /\
  (closed = true -> nth (length v - 1) v 0 + gap * nth (length v - 1) d 0 = nth 0 v 0 + turn /\
                    total (fun i => element_length s gap i * nth i d 0) (length v) = turn) /\
  (closed = false -> nth (length v - 1) d 0 = nth (length v - 2) d 0).
