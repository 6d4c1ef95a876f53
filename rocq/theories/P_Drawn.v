(** C131: the drawn lap and the drawn boundaries of the track. Composition of the bounds of the optimisation, of
    the track made from a circuit and of the position computed by the road. *)
From Coq Require Import QArith Reals Qreals Lra Lia List.
From Verif Require Import M_Vec M_Road M_Tire M_Feasible M_Controls M_Laptime M_Kerb M_Mesh M_Track.
From Verif Require Import S_Road S_Feasible S_Laptime S_Track S_Drawn L_Road L_Track L_Track2 P_Feasible P_Track.
Import M_Vec M_Road ListNotations.
Local Open Scope R_scope.

Lemma on_the_normal r e wl wr n : - wl <= n <= wr ->
  on_segment (left_point r e wl) (right_point r e wr) (vadd r (vscale n (normal e))).
Proof.
  intros H. destruct (Rle_lt_or_eq_dec 0 (wl + wr)) as [Hp|H0]; [lra| |].
  - exists ((n + wl) / (wl + wr)). split.
    + split; [apply Rmult_le_pos; [lra|left; now apply Rinv_0_lt_compat]|].
      apply (Rmult_le_reg_r (wl + wr)); [lra|]. unfold Rdiv. rewrite Rmult_assoc, Rinv_l by lra. lra.
    + unfold left_point, right_point, coordinates, vadd, vscale, vsub. destruct r as [r1 r2 r3], (normal e) as [n1 n2 n3]. cbn [vx vy vz]. f_equal; field; lra.
  - exists 0. split; [lra|]. assert (n = - wl) as -> by lra.
    unfold left_point, right_point, coordinates, vadd, vscale, vsub. destruct r as [r1 r2 r3], (normal e) as [n1 n2 n3]. cbn [vx vy vz]. f_equal; ring.
Qed.

Lemma real_point_eq p q : point_eq p q -> real_point p = real_point q.
Proof. intros (H1 & H2 & H3). unfold real_point. f_equal; now apply Qeq_eqR. Qed.
Lemma real_angles_eq p q : point_eq p q -> real_angles p = real_angles q.
Proof. intros (H1 & H2 & H3). unfold real_angles. f_equal; now apply Qeq_eqR. Qed.

(** What the track made from a circuit gives at a point of the circuit, in real numbers. *)
Lemma track_at_point c i : well_formed c -> increasing c -> (i < ci_n c)%nat ->
  exists t, make_track c = Ok t /\
  let s := nth i (ci_s c) 0%Q in
  real_point (t_position t s) = real_point (nth i (ci_center c) origin) /\
  real_angles (t_angles t s) = circuit_angles c i /\
  Q2R (t_left_limit t s) = Q2R (nth i (ci_nl c) 0%Q) + Q2R (kerb_widening (ci_left_kerb c) s) /\
  Q2R (t_right_limit t s) = Q2R (nth i (ci_nr c) 0%Q) + Q2R (kerb_widening (ci_right_kerb c) s).
Proof.
  intros W I Hi. destruct (C72_values_at_mesh_points_partial c W I) as (t & Ht & H). exists t. split; [exact Ht|].
  destruct (H i Hi) as (P & A & _ & L & R). cbv zeta. split; [now apply real_point_eq|].
  split; [unfold circuit_angles; now apply real_angles_eq|]. split; rewrite <- Q2R_plus; now apply Qeq_eqR.
Qed.

(** Whatever the vehicle: a lap on the mesh of the circuit within the bounds of the optimisation is drawn, at
    every optimised point where no kerb is used, between the two boundary points of the circuit. *)
Theorem C131_drawn_between_boundaries : forall c t m o direct closed ins cs i de alpha u v w,
  well_formed c -> increasing c -> boundaries_of_preprocessor c -> make_track c = Ok t ->
  left_limit m = t_left_limit t -> right_limit m = t_right_limit t ->
  respects_bounds m o (ci_s c) direct closed ins cs ->
  (offset closed <= i < ci_n c)%nat ->
  no_used_kerb (ci_left_kerb c) (nth i (ci_s c) 0%Q) -> no_used_kerb (ci_right_kerb c) (nth i (ci_s c) 0%Q) ->
  let s := nth i (ci_s c) 0%Q in
  let n := Q2R (at2 ins i (in_time m + 1)) in
  on_segment (real_point (nth i (ci_left c) origin)) (real_point (nth i (ci_right c) origin))
    (ro_position (road_update (real_point (t_position t s)) (real_angles (t_angles t s)) de n alpha u v w)).
Proof.
  intros c t m o direct closed ins cs i de alpha u v w W I B Ht El Er R Hi Kl Kr s n.
  destruct (track_at_point c i W I ltac:(lia)) as (t' & Ht' & P & A & L & Rr). rewrite Ht in Ht'. injection Ht' as <-.
  destruct R as (_ & Rn & _). assert (Len : length (ci_s c) = ci_n c) by apply W. destruct (Rn i ltac:(lia)) as [H1 H2]. cbn [fst snd] in H1, H2.
  rewrite El in H1. rewrite Er in H2. apply Qle_Rle in H1, H2. rewrite Q2R_opp in H1. fold s in H1, H2, P, A, L, Rr. fold n in H1, H2.
  destruct (C72_kerb_widening (ci_left_kerb c) s) as [Z1 _]. destruct (C72_kerb_widening (ci_right_kerb c) s) as [Z2 _].
  rewrite L, (Z1 Kl) in H1. rewrite Rr, (Z2 Kr) in H2. replace (Q2R 0) with 0 in H1, H2 by (unfold Q2R; cbn; lra).
  destruct (B i ltac:(lia)) as [-> ->]. cbn [road_update ro_position]. rewrite P, A. apply on_the_normal. lra.
Qed.

(** With kerbs in use the boundaries are those of the circuit moved by the widths of the kerbs. *)
Theorem C131_drawn_with_kerbs : forall c t m o direct closed ins cs i de alpha u v w,
  well_formed c -> increasing c -> make_track c = Ok t ->
  left_limit m = t_left_limit t -> right_limit m = t_right_limit t ->
  respects_bounds m o (ci_s c) direct closed ins cs ->
  (offset closed <= i < ci_n c)%nat ->
  let s := nth i (ci_s c) 0%Q in
  let n := Q2R (at2 ins i (in_time m + 1)) in
  let r := real_point (nth i (ci_center c) origin) in
  let e := circuit_angles c i in
  on_segment (left_point r e (Q2R (nth i (ci_nl c) 0%Q) + Q2R (kerb_widening (ci_left_kerb c) s)))
             (right_point r e (Q2R (nth i (ci_nr c) 0%Q) + Q2R (kerb_widening (ci_right_kerb c) s)))
    (ro_position (road_update (real_point (t_position t s)) (real_angles (t_angles t s)) de n alpha u v w)).
Proof.
  intros c t m o direct closed ins cs i de alpha u v w W I Ht El Er R Hi s n r e.
  destruct (track_at_point c i W I ltac:(lia)) as (t' & Ht' & P & A & L & Rr). rewrite Ht in Ht'. injection Ht' as <-.
  destruct R as (_ & Rn & _). assert (Len : length (ci_s c) = ci_n c) by apply W. destruct (Rn i ltac:(lia)) as [H1 H2]. cbn [fst snd] in H1, H2.
  rewrite El in H1. rewrite Er in H2. apply Qle_Rle in H1, H2. rewrite Q2R_opp in H1. fold s in H1, H2, P, A, L, Rr. fold n in H1, H2.
  cbn [road_update ro_position]. rewrite P, A. apply on_the_normal. fold s in L, Rr. lra.
Qed.

(** The f1 keeps half of its front track, seen along the normal, from both boundaries as well. *)
Theorem C131_room_for_the_car : forall c t i tfl tfr trl trr mass g0 fl fr rl rr n alpha track de u v w,
  well_formed c -> increasing c -> boundaries_of_preprocessor c -> make_track c = Ok t -> (i < ci_n c)%nat ->
  no_used_kerb (ci_left_kerb c) (nth i (ci_s c) 0%Q) -> no_used_kerb (ci_right_kerb c) (nth i (ci_s c) 0%Q) ->
  let s := nth i (ci_s c) 0%Q in
  within_bounds (f1_extra_bounds tfl tfr trl trr mass g0 (Q2R (t_left_limit t s)) (Q2R (t_right_limit t s)))
                (f1_extra_constraints fl fr rl rr n alpha track) ->
  let p := ro_position (road_update (real_point (t_position t s)) (real_angles (t_angles t s)) de n alpha u v w) in
  let l := real_point (nth i (ci_left c) origin) in
  let q := real_point (nth i (ci_right c) origin) in
  on_segment l q p /\ Rabs (track / 2 * cos alpha) <= norm (vsub p l) /\ Rabs (track / 2 * cos alpha) <= norm (vsub p q).
Proof.
  intros c t i tfl tfr trl trr mass g0 fl fr rl rr n alpha track de u v w W I B Ht Hi Kl Kr s H p l q.
  destruct (track_at_point c i W I Hi) as (t' & Ht' & P & A & L & Rr). rewrite Ht in Ht'. injection Ht' as <-. fold s in P, A, L, Rr.
  destruct (C72_kerb_widening (ci_left_kerb c) s) as [Z1 _]. destruct (C72_kerb_widening (ci_right_kerb c) s) as [Z2 _].
  rewrite (Z1 Kl) in L. rewrite (Z2 Kr) in Rr. replace (Q2R 0) with 0 in L, Rr by (unfold Q2R; cbn; lra). rewrite Rplus_0_r in L, Rr.
  rewrite L, Rr in H. destruct (B i Hi) as [Bl Br]. subst p l q. rewrite Bl, Br. cbn [road_update ro_position]. rewrite P, A.
  set (r := real_point (nth i (ci_center c) origin)) in *. set (e := circuit_angles c i) in *.
  set (wl := Q2R (nth i (ci_nl c) 0%Q)) in *. set (wr := Q2R (nth i (ci_nr c) 0%Q)) in *.
  apply (C124_what_the_constraints_say _ _ _ _ _ _ _ _ _ _ _ _ _ _ _ r e) in H. destruct H as (_ & H1 & H2). rewrite between_is in H1, H2.
  assert (K : Rabs (track / 2 * cos alpha) <= n + wl /\ Rabs (track / 2 * cos alpha) <= wr - n) by (unfold Rabs; destruct (Rcase_abs _); lra).
  pose proof (Rabs_pos (track / 2 * cos alpha)) as Ka.
  split; [apply on_the_normal; lra|].
  destruct (frame_right_handed e) as (_ & Hn & _). revert Hn. unfold left_point, right_point, coordinates.
  destruct r as [r1 r2 r3], (normal e) as [n1 n2 n3]. unfold norm, dot, vsub, vadd, vscale. cbn [vx vy vz]. intros Hn.
  assert (S : forall d, 0 <= d -> sqrt (d * d * (n1 * n1 + n2 * n2 + n3 * n3)) = d) by (intros d Hd; rewrite Hn, Rmult_1_r; now apply sqrt_square).
  split.
  - match goal with |- _ <= sqrt ?x => replace x with ((n + wl) * (n + wl) * (n1 * n1 + n2 * n2 + n3 * n3)) by ring end. rewrite S; lra.
  - match goal with |- _ <= sqrt ?x => replace x with ((wr - n) * (wr - n) * (n1 * n1 + n2 * n2 + n3 * n3)) by ring end. rewrite S; lra.
Qed.

(** Hypotheses are met: a straight circuit of three points. *)
Definition straight : circuit :=
  let z := [0; 0; 0]%Q in
  let at_y y := [(0, y, 0); (10, y, 0); (20, y, 0)]%Q in
  MkCircuit false false 20 (0, 0, 0, 0)%Q (1, 1, 1, 1)%Q (1, 1)%Q (1, 1)%Q 3 [0; 10; 20]%Q
    (at_y 0%Q) (at_y (-4)%Q) (at_y 6%Q) (at_y (-4)%Q) (at_y 6%Q) z z z z z z [4; 4; 4]%Q [6; 6; 6]%Q z z z z z 0%Z false [] [].
Example C131_case : well_formed straight /\ increasing straight /\ boundaries_of_preprocessor straight /\
  (exists t, make_track straight = Ok t /\ Q2R (t_left_limit t 10) = 4) /\
  no_used_kerb (ci_left_kerb straight) 10 /\
  real_point (nth 1 (ci_left straight) origin) = V 10 (-4) 0.
Proof.
  assert (W : well_formed straight) by (unfold well_formed; cbn; repeat split; try lia; discriminate).
  assert (I : increasing straight) by (split; [intros [|[|i]] H; cbn in H; try lia; reflexivity|discriminate]).
  split; [exact W|]. split; [exact I|]. split.
  - intros i Hi. cbn in Hi.
    assert (A : circuit_angles straight i = Euler 0 0 0).
    { unfold circuit_angles, real_angles. cbn [fst snd]. do 3 (destruct i as [|i]; [f_equal; unfold Q2R; cbn; lra|]). lia. }
    rewrite A. unfold left_point, right_point, coordinates, normal, real_point. cbn [yaw pitch roll vx vy vz]. rewrite sin_0, cos_0.
    do 3 (destruct i as [|i]; [split; f_equal; unfold Q2R; cbn; lra|]). lia.
  - split; [|split; [intros k []|unfold real_point; cbn; f_equal; unfold Q2R; cbn; lra]].
    destruct (track_at_point straight 1 W I ltac:(cbn; lia)) as (t & Ht & _ & _ & L & _). exists t. split; [exact Ht|].
    change (nth 1 (ci_s straight) 0%Q) with 10%Q in L. rewrite L. unfold Q2R. cbn. lra.
Qed.

Print Assumptions C131_drawn_between_boundaries.
Print Assumptions C131_drawn_with_kerbs.
Print Assumptions C131_room_for_the_car.
