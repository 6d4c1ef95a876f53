(** Property theorems C61, C88 and C89: vehicles, their copies and their tracks. *)
From stdpp Require Import base strings gmap list.
From Verif Require Import S_Regex M_Store S_Store M_Fleet S_Fleet L_Fleet.

(** Concrete parts: parameters and tracks are numbers, odd tracks have elevation,
    the parameter "mass" can be set. *)
Definition parts0 : parts nat nat nat :=
  Parts 1 0 (fun m q x => if String.eqb q "mass" then Some x else None)
        (fun m q a x => Some (m + x)) (fun m q a x g => if decide (length a = length x) then Some m else None)
        Nat.odd (fun t b sd wd => (t + 2 * length sd, true)) (fun t => t) (fun t => t) (fun t v => None).
Notation fcall := (call (vehicle nat nat) (vehicle nat nat) nat nat).
Definition load_kart (n : string) (t : nat) : fcall :=
  CreateVehicleFromXml n (Some (VehicleFile "kart-6dof" (Some (new_vehicle 5 t)) None)).
Definition load_track (n : string) (t : nat) : fcall :=
  CreateTrackFromXml n (Some (TrackFile "discrete" (Some t))).
Definition history0 : list fcall :=
  [load_kart "kart" 0; CreateVehicleEmpty "f1" "f1-3dof"; load_track "flat" 2; load_track "hilly" 3;
   VehicleChangeTrack "kart" "flat"; VehicleSetParameter "f1" "mass" 7].
Definition fstore0 := (run (fleet_env parts0) empty_store history0).1.

Section Theorems.
Context {M T N : Type}.
Implicit Types (p : parts M T N) (s : store (vehicle M T) (vehicle M T) T N).

(** *** C61 *)
(** The claim fails for every kart and every elevated track: the call throws, one of the two
    copies has the rejected track and the other one the previous track. *)
Theorem C61_rejected_track_kept_refuted : forall p s n tr v t,
  holds s n (VarKart v) -> holds s tr (VarTrack t) -> p_elevated p t = true ->
  exists s' v', step (fleet_env p) s (VehicleChangeTrack n tr) = (s', Exc) /\
    holds s' n (VarKart v') /\ track_ad v' = t /\ track_scalar v' = track_scalar v.
Proof.
  intros p s n tr v t Hv Ht He. simpl in Hv, Ht. simpl. unfold vehicle_change_track. rewrite Hv, Ht.
  simpl. unfold kart_change_track. simpl. rewrite He.
  eexists _, _. split; [reflexivity|]. split; [simpl; apply lookup_insert|]. split; reflexivity.
Qed.

(** The same happens when the track is given to optimal_laptime or propagate_vehicle. *)
Theorem C61_rejected_by_laptime_refuted : forall p s n tr v t r,
  holds s n (VarKart v) -> holds s tr (VarTrack t) -> p_elevated p t = true -> lr_options r = true ->
  exists s' v', step (fleet_env p) s (OptimalLaptime n tr r) = (s', Exc) /\
    holds s' n (VarKart v') /\ track_ad v' = t /\ track_scalar v' = track_scalar v.
Proof.
  intros p s n tr v t r Hv Ht He Ho. simpl in Hv, Ht. simpl. unfold optimal_laptime. rewrite Hv, Ht, Ho.
  simpl. unfold kart_change_track. simpl. rewrite He.
  eexists _, _. split; [reflexivity|]. split; [simpl; apply lookup_insert|]. split; reflexivity.
Qed.

(** What does hold: a kart is put on every flat track and an F1 on every track, no
    parameter changes, and no other variable changes in any case. *)
Theorem C61_accepted_partial : forall p s n tr v t,
  holds s tr (VarTrack t) ->
  (holds s n (VarKart v) /\ p_elevated p t = false) \/
  (holds s n (VarF1 v) /\ forall k, ~ holds s n (VarKart k)) ->
  exists s' v', step (fleet_env p) s (VehicleChangeTrack n tr) = (s', Ret VUnit) /\
    has_vehicle s' n v' /\ on_track v' t /\
    cartesian_scalar v' = cartesian_scalar v /\ curvilinear_scalar v' = curvilinear_scalar v /\
    cartesian_ad v' = cartesian_ad v /\ curvilinear_ad v' = curvilinear_ad v.
Proof.
  intros p s n tr v t Ht [[Hv He]|[Hv Hk]]; simpl in Hv, Ht; simpl; unfold vehicle_change_track.
  - rewrite Hv, Ht. simpl. unfold kart_change_track. simpl. rewrite He.
    eexists _, _. split; [reflexivity|]. split; [left; simpl; apply lookup_insert|]. repeat split.
  - destruct (t_kart s !! n) as [k|] eqn:Ek; [now destruct (Hk k)|]. rewrite Hv, Ht. simpl.
    eexists _, _. split; [reflexivity|]. split; [right; simpl; apply lookup_insert|]. repeat split.
Qed.

Theorem C61_only_the_vehicle_partial : forall p s n tr s' res m v, m <> n ->
  step (fleet_env p) s (VehicleChangeTrack n tr) = (s', res) -> (holds s' m v <-> holds s m v).
Proof.
  intros p s n tr s' res m v Hm E.
  apply (L_StoreOut.same_at_holds s s' m).
  exact (L_StoreOut.step_frame _ _ (VehicleChangeTrack n tr) _ _ m Hm E).
Qed.

(** *** C88 *)
(** After every history the four copies of every vehicle have the same parameters, and
    the two curvilinear copies of every F1 are on the same track. *)
Theorem C88_copies_agree_partial : forall p cs s' rs,
  Forall loads_uniform cs -> run (fleet_env p) empty_store cs = (s', rs) ->
  (forall n v, has_vehicle s' n v -> same_parameters v) /\
  (forall n v, holds s' n (VarF1 v) -> same_track v).
Proof. exact fleet_agrees. Qed.

(** As long as only flat tracks are used, so are those of every kart. *)
Theorem C88_copies_agree_flat_partial : forall p cs s' rs, limits_keep_elevation p ->
  Forall loads_uniform cs -> Forall (brings_flat p) cs -> run (fleet_env p) empty_store cs = (s', rs) ->
  forall n v, has_vehicle s' n v -> same_parameters v /\ same_track v.
Proof. exact fleet_agrees_flat. Qed.

(** *** C89 *)
Theorem C89_vehicle_keeps_its_track : forall p s n tr t s1 cs s2 rs,
  holds s tr (VarTrack t) -> (exists v, has_vehicle s n v) ->
  step (fleet_env p) s (VehicleChangeTrack n tr) = (s1, Ret VUnit) ->
  Forall (keeps_track n) cs -> run (fleet_env p) s1 cs = (s2, rs) ->
  exists v, has_vehicle s2 n v /\ on_track v t.
Proof.
  intros p s n tr t s1 cs s2 rs Ht Hv E HF ER.
  eapply run_keeps; [exact HF|exact ER|]. eapply change_track_sets; eauto.
Qed.

End Theorems.

Theorem C88_kart_tracks_refuted : exists p cs n v, Forall loads_uniform cs /\
  holds (run (fleet_env p) (@empty_store (vehicle nat nat) (vehicle nat nat) nat nat) cs).1 n (VarKart v) /\ ~ same_track v.
Proof.
  exists parts0, (history0 ++ [VehicleChangeTrack "kart" "hilly"]), "kart", (Vehicle 5 5 5 5 2 3).
  split; [|split; [vm_compute; reflexivity|discriminate]].
  repeat (apply Forall_cons; split); simpl; try exact I; try (apply Forall_nil; exact I).
  split; intros v [= <-]. exists 5, 0. reflexivity.
Qed.

(** *** Cases *)
Example C61_case : holds fstore0 "kart" (VarKart (Vehicle 5 5 5 5 2 2)) /\ holds fstore0 "hilly" (VarTrack 3) /\
  p_elevated parts0 3 = true /\ holds fstore0 "f1" (VarF1 (Vehicle 7 7 7 7 0 0)).
Proof. vm_compute. auto. Qed.

Example C88_case : Forall loads_uniform history0 /\ limits_keep_elevation parts0 /\
  Forall (brings_flat parts0) (take 3 history0).
Proof.
  split; [|split].
  - repeat (apply Forall_cons; split); simpl; try exact I; try (apply Forall_nil; exact I).
    split; intros v [= <-]. exists 5, 0. reflexivity.
  - intros t side sd wd. change (Nat.odd (t + 2 * length sd) = Nat.odd t).
    now rewrite Nat.odd_add_mul_2.
  - repeat (apply Forall_cons; split); simpl; try exact I; try (apply Forall_nil; exact I).
    intros t [= <-]. reflexivity.
Qed.

Example C89_case : Forall (keeps_track (M:=nat) (T:=nat) (N:=nat) "f1")
  [VehicleSetParameter "f1" "mass" 3; MoveVariable "flat" "other"; TrackSetLimit "hilly" "left" [1] [2];
   PropagateVehicle "f1" "flat" false true; VehicleChangeTrack "kart" "hilly"].
Proof. repeat (apply Forall_cons; split); simpl; auto; try (apply Forall_nil; exact I). Qed.

Print Assumptions C61_rejected_track_kept_refuted.
Print Assumptions C61_rejected_by_laptime_refuted.
Print Assumptions C61_accepted_partial.
Print Assumptions C61_only_the_vehicle_partial.
Print Assumptions C88_copies_agree_partial.
Print Assumptions C88_copies_agree_flat_partial.
Print Assumptions C89_vehicle_keeps_its_track.
Print Assumptions C88_kart_tracks_refuted.
