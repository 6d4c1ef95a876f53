(** Specification for C61, C88 and C89. *)
From stdpp Require Import base strings gmap list.
From Verif Require Import S_Regex M_Store S_Store M_Fleet.

Section Spec.
Context {M T N : Type}.

(** The four copies have the same parameters. *)
Definition same_parameters (v : vehicle M T) : Prop :=
  curvilinear_scalar v = cartesian_scalar v /\ cartesian_ad v = cartesian_scalar v /\
  curvilinear_ad v = cartesian_scalar v.

(** Both curvilinear copies are on the same track. *)
Definition same_track (v : vehicle M T) : Prop := track_ad v = track_scalar v.

(** The vehicle is on track [t]. *)
Definition on_track (v : vehicle M T) (t : T) : Prop := track_ad v = t /\ track_scalar v = t.

(** [s] has a vehicle (of either kind) [v] called [n]. *)
Definition has_vehicle (s : store (vehicle M T) (vehicle M T) T N) (n : string) (v : vehicle M T) : Prop :=
  holds s n (VarKart v) \/ holds s n (VarF1 v).

(** Vehicle files are read by constructing the same car four times. *)
Definition loads_uniform (c : call (vehicle M T) (vehicle M T) T N) : Prop :=
  match c with
  | CreateVehicleFromXml _ (Some f) =>
      (forall v, vf_kart f = Some v -> exists m t, v = new_vehicle m t) /\
      (forall v, vf_f1 f = Some v -> exists m t, v = new_vehicle m t)
  | _ => True
  end.

(** Every track this call brings into the store is flat. *)
Definition brings_flat (p : parts M T N) (c : call (vehicle M T) (vehicle M T) T N) : Prop :=
  match c with
  | CreateTrackFromXml _ (Some f) => forall t, tf_track f = Some t -> p_elevated p t = false
  | CircuitPreprocessor r => p_elevated p (pr_track r) = false
  | _ => True
  end.

(** Correcting the track limits does not change the elevation. *)
Definition limits_keep_elevation (p : parts M T N) : Prop :=
  forall t side sd wd, p_elevated p (p_limit p t side sd wd).1 = p_elevated p t.

(** The call neither replaces vehicle [n] nor asks to put it on a track; it may change its
    parameters, and it may do anything to tracks and to other vehicles. *)
Definition keeps_track (n : string) (c : call (vehicle M T) (vehicle M T) T N) : Prop :=
  match c with
  | CreateVehicleFromXml m _ | CreateVehicleEmpty m _ | CreateTrackFromXml m _
  | CreateScalar m _ | CreateVector m _ _ | CopyVariable _ m | VehicleChangeTrack m _ => n <> m
  | MoveVariable a b => n <> a /\ n <> b
  | DeleteVariable p => all_chars plain_or_star p /\ ~ glob_name p n
  | OptimalLaptime v _ r => n <> v /\ ~ laptime_writes r n
  | PropagateVehicle v _ use_circuit _ => use_circuit = false \/ n <> v
  | CircuitPreprocessor r => ~ prep_writes r n
  | _ => True
  end.

End Spec.
