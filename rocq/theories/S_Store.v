(** Specification of the variable store: one finite map from names to variables.
    Only the call syntax of M_Store is reused; nothing below refers to the five
    tables except [holds]/[represents], which say what a store contains. *)
From stdpp Require Import base strings gmap list.
From Coq Require Import ZArith Ascii.
From Verif Require Import M_Store S_Regex.

Section Spec.
Context {K F T N : Type}.

(** A variable of any of the five kinds. *)
Inductive var := VarKart (k : K) | VarF1 (c : F) | VarTrack (t : T)
               | VarScalar (x : N) | VarVector (l : list N).

Notation mem := (gmap string var).

(** The name [n] denotes the variable [v] in the table of its kind. *)
Definition holds (s : store K F T N) (n : string) (v : var) : Prop :=
  match v with
  | VarKart k => t_kart s !! n = Some k
  | VarF1 c => t_f1 s !! n = Some c
  | VarTrack t => t_track s !! n = Some t
  | VarScalar x => t_scalar s !! n = Some x
  | VarVector l => t_vector s !! n = Some l
  end.

(** No name denotes two variables. *)
Definition one_kind (s : store K F T N) : Prop :=
  forall n v w, holds s n v -> holds s n w -> v = w.

(** [n] is not the name of any variable. *)
Definition free (s : store K F T N) (n : string) : Prop := forall v, ~ holds s n v.

(** The store behaves as the single map [m]. *)
Definition represents (s : store K F T N) (m : mem) : Prop :=
  forall n v, m !! n = Some v <-> holds s n v.

(** Creating variable [ov] under name [n] ([None]: the contents could not be made):
    needs a fresh name, otherwise throws without effect. *)
Definition creates (m : mem) (n : string) (ov : option var) (m' : mem)
  (r : result N) : Prop :=
  match m !! n, ov with
  | None, Some v => m' = <[n := v]> m /\ r = Ret VUnit
  | _, _ => m' = m /\ r = Exc
  end.

(** Reads leave the memory alone. *)
Definition reads (m m' : mem) (r r' : result N) : Prop :=
  m' = m /\ r = r'.

Definition loaded_vehicle (file : option (vehicle_file K F)) : option var :=
  match file with
  | None => None
  | Some f => if String.eqb (vf_type f) "kart-6dof" then VarKart <$> vf_kart f
              else if String.eqb (vf_type f) "f1-3dof" then VarF1 <$> vf_f1 f
              else None
  end.

Definition loaded_track (file : option (track_file T)) : option var :=
  match file with
  | None => None
  | Some f => if String.eqb (tf_format f) "discrete" then VarTrack <$> tf_track f else None
  end.

Definition status (b : bool) : result N :=
  if b then Ret VUnit else Exc.

(** What each call does to the single map, and what it returns. *)
Definition spec_step (e : env K F T N) (m : mem) (c : call K F T N) (m' : mem)
  (r : result N) : Prop :=
  match c with
  | CreateVehicleFromXml n file => creates m n (loaded_vehicle file) m' r
  | CreateVehicleEmpty n ty =>
      creates m n (if String.eqb ty "f1-3dof" then Some (VarF1 (e_f1_default e)) else None) m' r
  | CreateTrackFromXml n file => creates m n (loaded_track file) m' r
  | CreateScalar n x => creates m n (Some (VarScalar x)) m' r
  | CreateVector n len data =>
      creates m n (Some (VarVector (take (Z.to_nat len) data))) m' r
  | CopyVariable a b => creates m b (m !! a) m' r
  | MoveVariable a b =>
      match m !! b, m !! a with
      | None, Some v => m' = <[b := v]> (delete a m) /\ r = Ret VUnit
      | _, _ => m' = m /\ r = Exc
      end
  | DeleteVariable p =>
      r = Ret VUnit /\
      forall n v, m' !! n = Some v <-> m !! n = Some v /\ ~ glob_name p n
  | DownloadScalar n =>
      reads m m' r (match m !! n with Some (VarScalar x) => Ret (VNum x) | _ => Exc end)
  | DownloadVectorSize n =>
      reads m m' r (match m !! n with Some (VarVector l) => Ret (VNat (length l)) | _ => Exc end)
  | DownloadVector n len =>
      reads m m' r (match m !! n with
                    | Some (VarVector l) =>
                        if decide (len = Z.of_nat (length l)) then Ret (VVec l) else Exc
                    | _ => Exc end)
  | TrackDownloadLength n =>
      reads m m' r (match m !! n with
                    | Some (VarTrack t) => Ret (VNum (e_track_length e t)) | _ => Exc end)
  | TrackDownloadData n len v =>
      reads m m' r (match m !! n with
                    | Some (VarTrack t) =>
                        match e_track_data e t v with
                        | Some l => if decide (len = Z.of_nat (e_track_points e t))
                                    then if decide (e_track_points e t <= length l)
                                         then Ret (VVec (take (e_track_points e t) l)) else UB
                                    else Exc
                        | None => Exc end
                    | _ => Exc end)
  | VariableType n =>
      reads m m' r (match m !! n with
                    | Some (VarKart _) => Ret (VStr "kart-6dof")
                    | Some (VarF1 _) => Ret (VStr "f1-3dof")
                    | Some (VarTrack _) => Ret (VStr "track")
                    | Some (VarScalar _) => Ret (VStr "scalar")
                    | Some (VarVector _) => Ret (VStr "vector")
                    | None => Exc end)
  | VehicleSetParameter n p x =>
      match m !! n with
      | Some (VarF1 c) => m' = <[n := VarF1 (e_f1_set e c p x).1]> m /\
                          r = status (e_f1_set e c p x).2
      | _ => m' = m /\ r = Ret VUnit
      end
  | VehicleDeclareConstant n p a x =>
      match m !! n with
      | Some (VarF1 c) => m' = <[n := VarF1 (e_f1_add e c p a x).1]> m /\
                          r = status (e_f1_add e c p a x).2
      | Some (VarKart k) => m' = <[n := VarKart (e_kart_add e k p a x).1]> m /\
                            r = status (e_kart_add e k p a x).2
      | _ => m' = m /\ r = Exc
      end
  | VehicleDeclareVariable n p a x g =>
      match m !! n with
      | Some (VarF1 c) => m' = <[n := VarF1 (e_f1_addv e c p a x g).1]> m /\
                          r = status (e_f1_addv e c p a x g).2
      | Some (VarKart k) => m' = <[n := VarKart (e_kart_addv e k p a x g).1]> m /\
                            r = status (e_kart_addv e k p a x g).2
      | _ => m' = m /\ r = Exc
      end
  | VehicleChangeTrack n tr =>
      match m !! n, m !! tr with
      | Some (VarF1 c), Some (VarTrack t) =>
          m' = <[n := VarF1 (e_f1_track e c t).1]> m /\ r = status (e_f1_track e c t).2
      | Some (VarKart k), Some (VarTrack t) =>
          m' = <[n := VarKart (e_kart_track e k t).1]> m /\ r = status (e_kart_track e k t).2
      | Some (VarF1 _), _ | Some (VarKart _), _ => m' = m /\ r = Exc
      | _, _ => m' = m /\ r = Ret VUnit
      end
  | TrackSetLimit n side sd wd =>
      match m !! n with
      | Some (VarTrack t) =>
          if decide (side = "left" \/ side = "right") then
            m' = <[n := VarTrack (e_track_limit e t (String.eqb side "left") sd wd).1]> m /\
            r = status (e_track_limit e t (String.eqb side "left") sd wd).2
          else m' = m /\ r = Exc
      | _ => m' = m /\ r = Exc
      end
  | OptimalLaptime _ _ _ => False
  | CircuitPreprocessor _ => False
  | PropagateVehicle n tr true ok =>
      match m !! n, m !! tr with
      | Some (VarF1 c), Some (VarTrack t) =>
          m' = <[n := VarF1 (e_f1_track e c t).1]> m /\ r = status ((e_f1_track e c t).2 && ok)
      | Some (VarKart k), Some (VarTrack t) =>
          m' = <[n := VarKart (e_kart_track e k t).1]> m /\ r = status ((e_kart_track e k t).2 && ok)
      | Some (VarF1 _), _ | Some (VarKart _), _ => m' = m /\ r = Exc
      | _, _ => m' = m /\ r = Ret VUnit
      end
  | PropagateVehicle n _ false ok | SteadyState n ok | GgDiagram n ok =>
      reads m m' r (match m !! n with
                    | Some (VarF1 _) | Some (VarKart _) => status ok
                    | _ => Ret VUnit end)
  end.

(** Calls covered by [spec_step]: array lengths are those of the caller's array
    (an [int], nonnegative and below 2^31; negative lengths are treated
    with the buffers) and delete patterns use only literal characters and
    ['*']. optimal_laptime and circuit_preprocessor are specified separately. *)
Definition supported (c : call K F T N) : Prop :=
  match c with
  | CreateVector n len data => (0 <= len <= Z.of_nat (length data))%Z
  | DeleteVariable p => all_chars plain_or_star p
  | DownloadVector n len => (0 <= len < 2 ^ 31)%Z
  | TrackDownloadData n len v => (0 <= len < 2 ^ 31)%Z
  | OptimalLaptime _ _ _ | CircuitPreprocessor _ => False
  | _ => True
  end.

(** A history over the single map. *)
Inductive spec_run (e : env K F T N) : mem -> list (call K F T N) -> mem ->
  list (result N) -> Prop :=
| spec_nil m : spec_run e m [] m []
| spec_cons m c m1 r cs m2 rs :
    spec_step e m c m1 r -> spec_run e m1 cs m2 rs -> spec_run e m (c :: cs) m2 (r :: rs).

(** Names that an optimal_laptime run with these settings may store. *)
Definition laptime_writes (r : laptime_run N) (n : string) : Prop :=
  exists v, v ∈ lr_variables r /\
    (n = lr_prefix r +:+ v \/
     (lr_sensitivity r = true /\
      exists a, a ∈ lr_aliases r /\ n = lr_prefix r +:+ "derivatives/" +:+ v +:+ "/" +:+ a)).

Definition prep_vector_names : list string :=
  ["arclength"; "centerline/x"; "centerline/y"; "left/x"; "left/y"; "right/x"; "right/y";
   "left_measured/x"; "left_measured/y"; "right_measured/x"; "right_measured/y";
   "yaw_dot"; "nl"; "nr"].

(** Names that a circuit_preprocessor run may store. *)
Definition prep_writes (r : prep_run T N) (n : string) : Prop :=
  pr_table r = Some n \/
  exists p v, pr_prefix r = Some p /\ v ∈ prep_vector_names /\ n = p +:+ v.

(** The call has nothing to do with the variable named [n]: it does not name [n]
    as the object to create, change, move or delete (as source of a copy it may),
    nor does [n] match a delete pattern or an output name. *)
Definition unrelated (c : call K F T N) (n : string) : Prop :=
  match c with
  | CreateVehicleFromXml m _ | CreateVehicleEmpty m _ | CreateTrackFromXml m _
  | CreateScalar m _ | CreateVector m _ _ | CopyVariable _ m
  | VehicleSetParameter m _ _ | VehicleDeclareConstant m _ _ _ | VehicleChangeTrack m _
  | VehicleDeclareVariable m _ _ _ _ | PropagateVehicle m _ _ _
  | TrackSetLimit m _ _ _ => n <> m
  | MoveVariable a b => n <> a /\ n <> b
  | DeleteVariable p => all_chars plain_or_star p /\ ~ glob_name p n
  | DownloadScalar _ | DownloadVectorSize _ | DownloadVector _ _ | TrackDownloadLength _
  | TrackDownloadData _ _ _ | VariableType _ | SteadyState _ _ | GgDiagram _ _ => True
  | OptimalLaptime v _ r => n <> v /\ ~ laptime_writes r n
  | CircuitPreprocessor r => ~ prep_writes r n
  end.

Definition no_slash (v : string) : Prop := ~ In "/"%char (list_ascii_of_string v).

(** Names of states, controls and outputs of the vehicles contain no '/'. *)
Definition plain_outputs (c : call K F T N) : Prop :=
  match c with
  | OptimalLaptime _ _ r => forall v l, lr_vector r v = Some l -> no_slash v
  | _ => True
  end.

Definition not_preprocessor (c : call K F T N) : Prop :=
  match c with CircuitPreprocessor _ => False | _ => True end.

(** [n] names some variable. *)
Definition taken (s : store K F T N) (n : string) : Prop := exists v, holds s n v.


(** The calls that create a variable under a new name. *)
Definition creates_variable (c : call K F T N) : Prop :=
  match c with
  | CreateVehicleFromXml _ _ | CreateVehicleEmpty _ _ | CreateTrackFromXml _ _
  | CreateScalar _ _ | CreateVector _ _ _ | CopyVariable _ _ | MoveVariable _ _ => True
  | _ => False
  end.


(** The requested name [v] is recorded correctly in [s']. *)
Definition stored_output (r : laptime_run N) (s' : store K F T N) (v : string) : Prop :=
  (v = "laptime" -> holds s' (lr_prefix r +:+ v) (VarScalar (lr_laptime r))) /\
  (forall q, v = "integral_quantities." +:+ q ->
     exists x, lr_integral r q = Some x /\ holds s' (lr_prefix r +:+ v) (VarScalar x)) /\
  (v <> "laptime" -> (forall q, v <> "integral_quantities." +:+ q) ->
     exists l, lr_vector r v = Some l /\ holds s' (lr_prefix r +:+ v) (VarVector l)).

(** Its derivative with respect to each parameter is recorded correctly in [s']. *)
Definition stored_sensitivity (r : laptime_run N) (s' : store K F T N) (v : string) : Prop :=
  forall i a, lr_aliases r !! i = Some a ->
  let n := lr_prefix r +:+ "derivatives/" +:+ v +:+ "/" +:+ a in
  (v = "laptime" -> holds s' n (VarScalar (lr_dlaptime r i))) /\
  (v <> "laptime" -> (forall q, v <> "integral_quantities." +:+ q) ->
     holds s' n (VarVector (lr_dvector r v i))).


(** The requested name is one that the run can produce. *)
Definition known_name (r : laptime_run N) (v : string) : Prop :=
  v = "laptime" \/ (exists q, v = "integral_quantities." +:+ q /\ lr_integral r q <> None) \/
  ((forall q, v <> "integral_quantities." +:+ q) /\ lr_vector r v <> None).

End Spec.
Arguments var : clear implicits.
