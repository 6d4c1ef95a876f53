(** Model of the kerb tables (src/core/vehicles/kerb.h). Numbers are exact rationals
    instead of doubles. *)
From Coq Require Import QArith Bool Arith List.
From Verif Require Import M_Controls.
Import ListNotations.
Local Open Scope Q_scope.

(** models: Kerb::Kerb_element, kerb.h:24-30. *)
Record kerb := MkKerb { k_start : Q; k_finish : Q; k_width : Q; k_used : bool }.

(** One point of the input vectors of Kerb::compute: arclength, lateral displacement as a
    fraction of the width, curvature. The three vectors have the same size (asserted,
    kerb.h:79-80). *)
Record sample := MkSample { sa_s : Q; sa_n : Q; sa_k : Q }.

Definition eps8 : Q := 1 # 10 ^ 8.

(** models: append_kerb, kerb.h:42-58. The table is kept in order, the last kerb is the
    last of the list. *)
Definition append_kerb (ks : list kerb) (k : kerb) : res (list kerb) :=
  match rev ks with
  | [] => Ok (ks ++ [k])
  | b :: _ =>
      if Qlt_bool (k_start k) (k_finish b) then Throw
      else if Qlt_bool (k_finish k - eps8) (k_start k) then Throw
      else Ok (ks ++ [k])
  end.

(** models: lion trapz(x, y) as called in kerb.h:109 (trapezoidal rule). *)
Fixpoint trapz (l : list (Q * Q)) : Q :=
  match l with
  | (x0, y0) :: (((x1, y1) :: _) as l') => (1 # 2) * (x1 - x0) * (y0 + y1) + trapz l'
  | _ => 0
  end.

(** models: the decision of kerb.h:98-123; [side] is -1 (left) or 1 (right). *)
Definition mean_integrand (side : Q) (run : list sample) : Q :=
  trapz (map (fun p => (sa_s p, side * (sa_n p - (1 # 2)) * sa_k p)) run)
  / (sa_s (last run (MkSample 0 0 0)) - sa_s (hd (MkSample 0 0 0) run)).
Definition interior (side : Q) (run : list sample) : bool := Qlt_bool (1 # 1000) (mean_integrand side run).

(** models: the kerb built in kerb.h:106-126 from a run and the point that closes it. *)
Definition make_kerb (side width : Q) (use : bool) (ext : Q) (run : list sample) : kerb :=
  let inner := interior side run in
  MkKerb (sa_s (hd (MkSample 0 0 0) run)) (sa_s (last run (MkSample 0 0 0)))
         ((if inner then 1 else ext) * width) (negb inner && use).

Definition threshold : Q := 4 # 5.

(** models: one turn of the loop of Kerb::compute, kerb.h:85-140. State: the current run
    and the table. *)
Definition kerb_step (side width : Q) (use : bool) (ext : Q) (p : sample) (st : list sample * list kerb)
  : res (list sample * list kerb) :=
  let '(cur, ks) := st in
  if Qlt_bool threshold (sa_n p) then Ok (cur ++ [p], ks)
  else if (1 <? length cur)%nat then
    bind (append_kerb ks (make_kerb side width use ext (cur ++ [p]))) (fun ks' => Ok ([], ks'))
  else Ok ([], ks).
Fixpoint kerb_loop (side width : Q) (use : bool) (ext : Q) (ps : list sample) (st : list sample * list kerb)
  : res (list sample * list kerb) :=
  match ps with
  | [] => Ok st
  | p :: ps' => bind (kerb_step side width use ext p st) (kerb_loop side width use ext ps')
  end.
(** models: Kerb::compute, kerb.h:77-141. What is left in the current run at the end is
    dropped. *)
Definition kerb_compute (side width : Q) (use : bool) (ext : Q) (ps : list sample) : res (list kerb) :=
  bind (kerb_loop side width use ext ps ([], [])) (fun st => Ok (snd st)).

(** models: evaluate_generic, kerb.h:143-157. *)
Fixpoint kerb_evaluate (display : bool) (ks : list kerb) (s : Q) : Q :=
  match ks with
  | [] => 0
  | k :: ks' =>
      if Qlt_bool (k_start k - eps8) s && Qlt_bool s (k_finish k + eps8)
      then (if display || k_used k then k_width k else 0)
      else kerb_evaluate display ks' s
  end.
