(** Specification side of the kerb tables. *)
From Coq Require Import QArith Bool Arith List.
From Verif Require Import M_Controls M_Kerb.
Import ListNotations.
Local Open Scope nat_scope.

Definition no_sample : sample := MkSample 0 0 0.
Definition at_ (ps : list sample) (i : nat) : sample := nth i ps no_sample.
Definition arclength (ps : list sample) (i : nat) : Q := sa_s (at_ ps i).

(** The car is near the limit: displacement above 80 per cent. *)
Definition above (ps : list sample) (i : nat) : Prop := (4 # 5 < sa_n (at_ ps i))%Q.

(** Consecutive arclengths at least [d] apart. *)
Definition spaced (d : Q) (ps : list sample) : Prop :=
  forall i, S i < length ps -> (d <= arclength ps (S i) - arclength ps i)%Q.
Definition strictly_increasing (ps : list sample) : Prop :=
  forall i, S i < length ps -> (arclength ps i < arclength ps (S i))%Q.

(** Points [i..j-1] are a maximal run of at least two points above the threshold. *)
Definition run_of (ps : list sample) (i j : nat) : Prop :=
  i + 2 <= j /\ j <= length ps /\ (forall k, i <= k < j -> above ps k) /\
  (0 < i -> ~ above ps (i - 1)) /\ (j < length ps -> ~ above ps j).

(** Mean of side * (n - 1/2) * curvature over the points [i..j], trapezoidal rule. *)
Fixpoint area (f : nat -> Q) (s : nat -> Q) (i len : nat) : Q :=
  match len with
  | O => 0
  | S len' => ((1 # 2) * (s (S i) - s i) * (f i + f (S i)) + area f s (S i) len')%Q
  end.
Definition mean_over (side : Q) (ps : list sample) (i j : nat) : Q :=
  (area (fun k => side * (sa_n (at_ ps k) - (1 # 2)) * sa_k (at_ ps k)) (arclength ps) i (j - i)
   / (arclength ps j - arclength ps i))%Q.

(** The kerb of a run: from its first point to the first point after it. Interior kerbs
    (the mean is above 1e-3) go outwards and are not used; the others have the configured
    direction and are used when the user wants so. *)
Definition kerb_of_run (side width : Q) (use : bool) (ext : Q) (ps : list sample) (i j : nat) (k : kerb) : Prop :=
  k_start k = arclength ps i /\ k_finish k = arclength ps j /\
  (((1 # 1000 < mean_over side ps i j)%Q /\ (k_width k == width)%Q /\ k_used k = false) \/
   ((mean_over side ps i j <= 1 # 1000)%Q /\ (k_width k == ext * width)%Q /\ k_used k = use)).

(** Ordered, disjoint, not empty. *)
Fixpoint ordered (ks : list kerb) : Prop :=
  match ks with
  | [] => True
  | k :: ks' => (k_start k < k_finish k)%Q /\ Forall (fun k' => (k_finish k < k_start k')%Q) ks' /\ ordered ks'
  end.
