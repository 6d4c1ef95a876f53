(** Vocabulary of the statements about the Python module. *)
From stdpp Require Import base strings list.
From Coq Require Import ZArith Ascii.
From Verif Require Import M_Store S_Store S_Buffers M_Python.
From Verif Require M_Options.

(** The names of the key, states, controls and outputs of a class of vehicle, as given by get_names. *)
Definition channel_names (v : M_Options.vehicle_info) : list string :=
  M_Options.v_key v :: M_Options.v_inputs v ++ M_Options.v_controls v ++ M_Options.v_outputs v.

(** A name that is not the one of a scalar of the run, of at most 98 characters and without NUL. *)
Definition channel_name (t : string) : Prop :=
  text_only t /\ String.length t <= 98 /\ t <> "laptime" /\ forall q, t <> "integral_quantities." +:+ q.

(** The dictionary [d] has one entry for each of [names], the vector that the run computed for it. *)
Definition dictionary_of {N} (r : laptime_run N) (names : list string) (d : list (string * pyvalue N)) : Prop :=
  map fst d = names /\
  forall v x, (v, x) ∈ d -> exists l, lr_vector r v = Some l /\ x = PyList l.

(** The vehicle exists. *)
Definition is_vehicle {K F T N} (s : store K F T N) (n : string) : Prop :=
  (exists k, holds s n (VarKart k)) \/ exists c, holds s n (VarF1 c).

(** The options ask for output variables under a prefix that is not empty, and do not list them. *)
Definition all_channels (doc : M_Options.xml) (prefix : string) : Prop :=
  exists ov p, M_Options.x_name doc = "options" /\ M_Options.child doc "output_variables" = Some ov /\
    M_Options.child ov "prefix" = Some p /\ M_Options.x_value p = prefix /\ prefix <> "" /\
    M_Options.child ov "variables" = None.
