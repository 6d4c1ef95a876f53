(** C145: tracks, diagrams and outputs from Python. *)
From stdpp Require Import base strings gmap list.
From Coq Require Import ZArith Lia.
From Verif Require Import M_Store M_Buffers M_Python M_PyTrack S_PyTrack L_Buffers P_Store P_Python.

Lemma named_array_spec {N} (p : survey N) name l : named_array p name = Some l <-> track_array p name l.
Proof.
  unfold named_array, scalar_map, vector_map. cbn [find_scalar find_vector].
  change (map px) with (@map (N * N * N) N (fun q => q.1.1)). change (map py) with (@map (N * N * N) N (fun q => q.1.2)).
  assert (E1 : forall q, map (fun r : N * N * N => r.1.1) q = coordinate first q) by (intro q; unfold coordinate; apply map_ext; intros [[? ?] ?]; reflexivity).
  assert (E2 : forall q, map (fun r : N * N * N => r.1.2) q = coordinate second q) by (intro q; unfold coordinate; apply map_ext; intros [[? ?] ?]; reflexivity).
  split.
  - repeat (match goal with |- context [String.eqb name ?k] => let E := fresh "E" in destruct (String.eqb_spec name k) as [E|E];
      [intros [= <-]; rewrite ?E1, ?E2; vm_compute in E; rewrite E; constructor | ] end); discriminate.
  - intros H. destruct H; cbn; rewrite ?E1, ?E2; reflexivity.
Qed.
Lemma array_length {N} (p : survey N) name l : surveyed p -> track_array p name l -> length l = p_n p.
Proof.
  intros (_ & H1 & H2 & H3 & H4 & H5 & H6 & H7 & H8) H. destruct H; unfold coordinate; rewrite ?map_length; assumption.
Qed.
Lemma write_whole {A} (xs buf : list A) : length buf = length xs -> write_all xs buf = Some xs.
Proof.
  revert buf. induction xs as [|x xs IH]; intros [|b buf] H; try discriminate; [reflexivity|].
  cbn. rewrite IH by (cbn in H; lia). reflexivity.
Qed.

Section Theorems.
Context {K F T N : Type}.
Context (e : env K F T N) (zero : N) (data : T -> survey N).
Context (points : forall t, e_track_points e t = p_n (data t)) (arrays : forall t v, e_track_data e t v = named_array (data t) v).
Implicit Types s : store K F T N.

(** The data of a track that exists: the array of that name, and nothing for other names. *)
Theorem C145_data s track t variable l : t_track s !! track = Some t -> surveyed (data t) ->
  (py_track_download_data e zero s track variable = Some l <-> track_array (data t) variable l).
Proof.
  intros Ht Hs. pose proof Hs as (Hn & _). unfold py_track_download_data, track_download_number_of_points. rewrite Ht, points.
  rewrite c_int_small by lia. destruct (Z.ltb_spec (Z.of_nat (p_n (data t))) 0) as [?|_]; [lia|].
  rewrite Nat2Z.id, c_int_small by lia. unfold track_download_data_into. rewrite Ht, points, arrays.
  assert (E : size_of_int (Z.of_nat (p_n (data t))) = Z.of_nat (p_n (data t))).
  { unfold size_of_int. apply Z.mod_small. lia. }
  rewrite E, Z.eqb_refl. split.
  - destruct (named_array (data t) variable) as [a|] eqn:Ea; [|discriminate].
    apply named_array_spec in Ea. pose proof (array_length _ _ _ Hs Ea) as L.
    rewrite decide_True by lia. rewrite take_ge by lia. rewrite write_whole by (rewrite repeat_length; lia). cbn.
    rewrite take_ge by lia. intros [= <-]. exact Ea.
  - intros H. pose proof (array_length _ _ _ Hs H) as L. apply named_array_spec in H. rewrite H.
    rewrite decide_True by lia. rewrite take_ge by lia. rewrite write_whole by (rewrite repeat_length; lia). cbn.
    rewrite take_ge by lia. reflexivity.
Qed.
Theorem C145_unknown_track s track variable : t_track s !! track = None ->
  py_track_download_data e zero s track variable = None /\ py_track_download_length e s track = None /\ py_track_coordinates e zero s track = None.
Proof.
  intros H. assert (D : forall v, py_track_download_data e zero s track v = None) by (intro v; unfold py_track_download_data, track_download_number_of_points; now rewrite H).
  split; [apply D|]. split; [unfold py_track_download_length, track_download_length; now rewrite H|]. unfold py_track_coordinates. now rewrite D.
Qed.
Theorem C145_length s track t : t_track s !! track = Some t -> py_track_download_length e s track = Some (e_track_length e t).
Proof. intros H. unfold py_track_download_length, track_download_length. now rewrite H. Qed.
Theorem C145_coordinates s track t : t_track s !! track = Some t -> surveyed (data t) ->
  let p := data t in
  py_track_coordinates e zero s track =
  Some [coordinate first (p_centre p); coordinate second (p_centre p); coordinate first (p_left p); coordinate second (p_left p);
        coordinate first (p_right p); coordinate second (p_right p); p_yaw p].
Proof.
  intros Ht Hs p. unfold py_track_coordinates.
  rewrite (proj2 (C145_data s track t "centerline.x" _ Ht Hs) (a_cx _)), (proj2 (C145_data s track t "centerline.y" _ Ht Hs) (a_cy _)),
    (proj2 (C145_data s track t "left.x" _ Ht Hs) (a_lx _)), (proj2 (C145_data s track t "left.y" _ Ht Hs) (a_ly _)),
    (proj2 (C145_data s track t "right.x" _ Ht Hs) (a_rx _)), (proj2 (C145_data s track t "right.y" _ Ht Hs) (a_ry _)),
    (proj2 (C145_data s track t "heading-angle" _ Ht Hs) (a_yaw _)). reflexivity.
Qed.

(** The diagram of a vehicle: in units of gravity, and its mirror image. *)
Context (kart_gg : K -> N -> Z -> option (list (N * N) * list (N * N))) (f1_gg : F -> N -> Z -> option (list (N * N) * list (N * N))) (per_g neg : N -> N).
Lemma computed smax smin n : (0 <= n)%Z -> length smax = Z.to_nat n -> length smin = Z.to_nat n ->
  let z := repeat zero (Z.to_nat n) in compute_gg (Some (smax, smin)) n z z z = Done (map fst smax, map snd smax, map snd smin).
Proof.
  intros Hn L1 L2 z. unfold compute_gg. rewrite decide_True by lia. rewrite !take_ge by lia.
  rewrite !write_whole by (unfold z; rewrite repeat_length, map_length; lia). reflexivity.
Qed.
Theorem C145_diagram_partial s vehicle speed n smax smin : (0 <= n < 2 ^ 31)%Z ->
  (exists k, t_kart s !! vehicle = Some k /\ kart_gg k speed n = Some (smax, smin)) \/
  (t_kart s !! vehicle = None /\ exists c, t_f1 s !! vehicle = Some c /\ f1_gg c speed n = Some (smax, smin)) ->
  length smax = Z.to_nat n -> length smin = Z.to_nat n ->
  exists ay ay_minus ax_max ax_min, py_gg_diagram zero kart_gg f1_gg per_g neg s vehicle speed n = Some (ay, ay_minus, ax_max, ax_min) /\
  forall i a b c, smax !! i = Some (a, b) -> snd <$> smin !! i = Some c ->
    ay !! i = Some (per_g a) /\ ay_minus !! i = Some (neg (per_g a)) /\ ax_max !! i = Some (per_g b) /\ ax_min !! i = Some (per_g c).
Proof.
  intros Hn H L1 L2. unfold py_gg_diagram. destruct (Z.ltb_spec n 0) as [?|_]; [lia|]. rewrite c_int_small by lia.
  assert (E : gg_diagram_into kart_gg f1_gg s (repeat zero (Z.to_nat n)) (repeat zero (Z.to_nat n)) (repeat zero (Z.to_nat n)) vehicle speed n =
    Done (map fst smax, map snd smax, map snd smin)).
  { unfold gg_diagram_into. destruct H as [(k & Hk & G) | (Hk & c & Hc & G)]; rewrite Hk, ?Hc, G; apply computed; lia. }
  rewrite E. eexists _, _, _, _. split; [reflexivity|]. intros i a b c A C.
  rewrite !take_ge by (rewrite map_length; lia). rewrite !list_lookup_fmap, A. cbn.
  destruct (smin !! i) as [[c1 c2]|]; [|discriminate]. injection C as <-. cbn. auto.
Qed.
(** An array of negative size is refused. *)
Theorem C145_negative s vehicle speed n : (n < 0)%Z -> py_gg_diagram zero kart_gg f1_gg per_g neg s vehicle speed n = None.
Proof. intros H. unfold py_gg_diagram. destruct (Z.ltb_spec n 0); [reflexivity|lia]. Qed.
(** A name that is not that of a vehicle gives a diagram of zeros instead of an error. *)
Theorem C145_unknown_vehicle_refuted s vehicle speed n : (0 <= n)%Z -> t_kart s !! vehicle = None -> t_f1 s !! vehicle = None ->
  let z := repeat (per_g zero) (Z.to_nat n) in
  py_gg_diagram zero kart_gg f1_gg per_g neg s vehicle speed n = Some (z, map neg z, z, z).
Proof.
  intros Hn H1 H2 z. unfold py_gg_diagram, gg_diagram_into. destruct (Z.ltb_spec n 0) as [?|_]; [lia|]. rewrite H1, H2.
  rewrite !take_ge by (rewrite repeat_length; lia). unfold z.
  assert (R : forall k, map per_g (repeat zero k) = repeat (per_g zero) k) by (induction k; cbn; congruence). now rewrite R.
Qed.
(** vehicle_get_output never returns a number. *)
Theorem C145_output_refuted c_output s vehicle q u x name r : py_vehicle_get_output c_output s vehicle q u x name = Some r -> r = None.
Proof. unfold py_vehicle_get_output. destruct (c_output _ _ _ _ _ _); intros [= <-]; reflexivity. Qed.
End Theorems.

(** *** A case: the track "catalunya" of three points *)
Definition survey0 (t : nat) : survey nat :=
  let at_ k := map (fun i => (i, k + i, 0)) (seq 0 t) in
  Survey t (map (fun i => 10 * i) (seq 0 t)) (repeat 1 t) (repeat 2 t) (repeat 5 t) (repeat 6 t) (at_ 0) (at_ 50) (at_ 60).
Definition env1 : env nat nat nat nat :=
  Env (e_f1_default env0) (e_f1_set env0) (e_f1_add env0) (e_kart_add env0) (e_f1_addv env0) (e_kart_addv env0) (e_f1_track env0) (e_kart_track env0)
      (e_track_limit env0) (e_track_length env0) (fun t => p_n (survey0 t)) (fun t v => named_array (survey0 t) v).
Definition gg0 (c v : nat) (n : Z) : option (list (nat * nat) * list (nat * nat)) :=
  Some (map (fun i => (i, 9)) (seq 0 (Z.to_nat n)), map (fun i => (i, 3)) (seq 0 (Z.to_nat n))).
Example C145_case :
  t_track store0 !! "catalunya" = Some 3 /\ surveyed (survey0 3) /\ (forall t, e_track_points env1 t = p_n (survey0 t)) /\
  (forall t v, e_track_data env1 t v = named_array (survey0 t) v) /\
  py_track_download_data env1 0 store0 "catalunya" "left.y" = Some [50; 51; 52] /\ py_track_download_data env1 0 store0 "catalunya" "left.z" = None /\
  t_kart store0 !! "car" = None /\ t_f1 store0 !! "car" = Some 7 /\ gg0 7 80 2 = Some ([(0, 9); (1, 9)], [(0, 3); (1, 3)]) /\
  py_gg_diagram 0 gg0 gg0 (fun x => x) S store0 "car" 80 2 = Some ([0; 1], [1; 2], [9; 9], [3; 3]) /\
  t_kart store0 !! "cat" = None /\ t_f1 store0 !! "cat" = None /\ py_gg_diagram 0 gg0 gg0 (fun x => x) S store0 "cat" 80 2 = Some ([0; 0], [1; 1], [0; 0], [0; 0]).
Proof. vm_compute. repeat split; reflexivity. Qed.

Print Assumptions C145_data.
Print Assumptions C145_unknown_track.
Print Assumptions C145_length.
Print Assumptions C145_coordinates.
Print Assumptions C145_diagram_partial.
Print Assumptions C145_negative.
Print Assumptions C145_unknown_vehicle_refuted.
Print Assumptions C145_output_refuted.
