(** Specification for C62 and C91 to C94. *)
From Coq Require Import String QArith ZArith Bool Arith List.
From Verif Require Import M_Controls M_Laptime M_Options.
Import ListNotations.
Local Open Scope string_scope.
Local Open Scope nat_scope.

(** [a] is what is written in the node at [path], or the default [d] when there is no such node. *)
Definition option_is {A} (doc : xml) (path : list string) (read : string -> option A) (d a : A) : Prop :=
  match element doc path with
  | Some e => read (x_value e) = Some a
  | None => a = d
  end.

(** The nodes inside the one at [path] (none when it is absent). *)
Definition nodes (doc : xml) (path : list string) : list xml :=
  match element doc path with Some e => x_children e | None => [] end.

(** No two nodes have the same name. *)
Definition distinct (l : list xml) : Prop := NoDup (map x_name l).

(** The description of a vehicle is consistent: one default per control and per input, distinct names. *)
Definition consistent (v : vehicle_info) : Prop :=
  length (v_types v) = length (v_controls v) /\ length (v_dissipations v) = length (v_controls v) /\
  length (v_controls_lb v) = length (v_controls v) /\ length (v_controls_ub v) = length (v_controls v) /\
  length (v_inputs_lb v) = length (v_inputs v) /\ length (v_inputs_ub v) = length (v_inputs v) /\
  NoDup (v_inputs v ++ v_controls v)%list.

(** What control number [i] called [name] should get from the nodes. *)
Definition control_as_written (rds : readers) (v : vehicle_info) (l : list xml) (types : list string) (diss : list Q)
  (hyper : list (list Q)) (i : nat) (name : string) : Prop :=
  (forall e, In e l -> x_name e = name ->
     exists t, attribute e "optimal_control_type" = Some t /\ nth_error types i = Some t /\
       (t = "hypermesh" -> exists h m, child e "hypermesh" = Some h /\ r_vec rds (x_value h) = Some m /\ nth_error hyper i = Some m) /\
       (t = "full-mesh" -> match child e "dissipation" with
                           | Some d => exists x, r_num rds (x_value d) = Some x /\ nth_error diss i = Some x
                           | None => nth_error diss i = nth_error (v_dissipations v) i
                           end)) /\
  (~ In name (map x_name l) ->
     nth_error types i = nth_error (v_types v) i /\ nth_error diss i = nth_error (v_dissipations v) i).

(** What bound number [i] of the variable called [name] should get from the children called [side]. *)
Definition bound_as_written (rds : readers) (l : list xml) (side : string) (defaults bounds : list Q) (i : nat) (name : string) : Prop :=
  (forall e, In e l -> x_name e = name ->
     match child e side with
     | Some c => exists x, r_num rds (x_value c) = Some x /\ nth_error bounds i = Some x
     | None => nth_error bounds i = nth_error defaults i
     end) /\
  (~ In name (map x_name l) -> nth_error bounds i = nth_error defaults i).

Definition valid_type (t : string) : Prop :=
  t = "dont optimize" \/ t = "constant" \/ t = "hypermesh" \/ t = "full-mesh".
