(** Lemmas about the cars. *)
From Coq Require Import Reals Lra Lia.
From Coquelicot Require Import Coquelicot.
From Verif Require Import M_Vec M_Tire M_Car S_Car S_Road L_Road.
Local Open Scope R_scope.

Lemma vec_eq a b : vx a = vx b -> vy a = vy b -> vz a = vz b -> a = b.
Proof. destruct a, b; cbn; intros; congruence. Qed.

(** Continuity of the largest and the smallest. *)
Lemma Rmax_abs a b : Rmax a b = (a + b + Rabs (a - b)) / 2.
Proof. unfold Rmax, Rabs. destruct (Rle_dec a b), (Rcase_abs (a - b)); lra. Qed.
Lemma Rmin_abs a b : Rmin a b = (a + b - Rabs (a - b)) / 2.
Proof. unfold Rmin, Rabs. destruct (Rle_dec a b), (Rcase_abs (a - b)); lra. Qed.
Lemma continuous_half (f : R -> R) x : continuous f x -> continuous (fun t => f t / 2) x.
Proof. intros H. apply (continuous_mult (K:=R_AbsRing) f (fun _ => / 2)); [exact H | apply continuous_const]. Qed.
Lemma continuous_scaled (f : R -> R) k x : continuous f x -> continuous (fun t => f t / k) x.
Proof. intros H. apply (continuous_mult (K:=R_AbsRing) f (fun _ => / k)); [exact H | apply continuous_const]. Qed.
Lemma continuous_Rmax (f g : R -> R) x : continuous f x -> continuous g x -> continuous (fun t => Rmax (f t) (g t)) x.
Proof.
  intros F G. apply continuous_ext with (fun t => (f t + g t + Rabs (f t - g t)) / 2); [intros; symmetry; apply Rmax_abs|].
  apply continuous_half. apply (continuous_plus (U:=R_UniformSpace) (V:=R_NormedModule)).
  - now apply (continuous_plus (U:=R_UniformSpace) (V:=R_NormedModule)).
  - apply (continuous_comp (fun t => f t - g t) Rabs); [now apply (continuous_minus (U:=R_UniformSpace) (V:=R_NormedModule)) | apply continuous_Rabs].
Qed.
Lemma continuous_Rmin (f g : R -> R) x : continuous f x -> continuous g x -> continuous (fun t => Rmin (f t) (g t)) x.
Proof.
  intros F G. apply continuous_ext with (fun t => (f t + g t - Rabs (f t - g t)) / 2); [intros; symmetry; apply Rmin_abs|].
  apply continuous_half. apply (continuous_minus (U:=R_UniformSpace) (V:=R_NormedModule)).
  - now apply (continuous_plus (U:=R_UniformSpace) (V:=R_NormedModule)).
  - apply (continuous_comp (fun t => f t - g t) Rabs); [now apply (continuous_minus (U:=R_UniformSpace) (V:=R_NormedModule)) | apply continuous_Rabs].
Qed.

(** The extrapolated power curve as one formula. *)
Lemma power_curve_formula e x : 0 < e_left e -> e_left e <= e_right e -> 0 <= e_p e (e_left e) -> 0 <= e_p e (e_right e) ->
  engine_power_curve e x =
  e_p e (Rmax (e_left e) (Rmin (e_right e) x)) *
  Rmax 0 (Rmin 1 (Rmin (x / e_left e) ((15000 / 14000 - x / e_right e) / (15000 / 14000 - 1)))).
Proof.
  intros L LR Pl Pr. unfold engine_power_curve. set (l := e_left e) in *. set (r := e_right e) in *.
  assert (Lx : forall y, 0 < y -> x / y * y = x) by (intros; field; lra).
  destruct (Rlt_dec x l) as [A|A].
  - replace (Rmax l (Rmin r x)) with l by (rewrite Rmin_right by lra; rewrite Rmax_left by lra; reflexivity).
    assert (X1 : x / l < 1) by (apply Rmult_lt_reg_r with l; [lra | rewrite Lx; lra]).
    assert (X2 : x / r < 1) by (apply Rmult_lt_reg_r with r; [lra | rewrite Lx; lra]).
    assert (Z : 1 <= (15000 / 14000 - x / r) / (15000 / 14000 - 1)) by lra.
    rewrite (Rmin_left (x / l)) by lra. rewrite Rmin_right by lra.
    destruct (Rle_dec 0 x) as [Hx|Hx].
    + assert (0 <= x / l) by (apply Rmult_le_reg_r with l; [lra | rewrite Lx; lra]).
      rewrite !Rmax_right; [field; lra | lra |]. apply Rmult_le_pos; [|left; apply Rinv_0_lt_compat; lra]. nra.
    + assert (x / l < 0) by (apply Rmult_lt_reg_r with l; [lra | rewrite Lx; lra]).
      rewrite !Rmax_left; [ring | lra |]. replace (x * e_p e l / l) with (e_p e l * (x / l)) by (field; lra). nra.
  - destruct (Rlt_dec r x) as [B|B].
    + replace (Rmax l (Rmin r x)) with r by (rewrite Rmin_left by lra; rewrite Rmax_right by lra; reflexivity).
      assert (X1 : 1 <= x / l) by (apply Rmult_le_reg_r with l; [lra | rewrite Lx; lra]).
      assert (X2 : 1 < x / r) by (apply Rmult_lt_reg_r with r; [lra | rewrite Lx; lra]).
      set (z := (15000 / 14000 - x / r) / (15000 / 14000 - 1)). assert (Z : z < 1) by (unfold z; lra).
      rewrite (Rmin_right (x / l)) by lra. rewrite (Rmin_right 1) by lra.
      replace (e_p e r * (15000 / 14000 - x / r) / (15000 / 14000 - 1)) with (e_p e r * z) by (unfold z; field; lra).
      destruct (Rle_dec 0 z); [rewrite !Rmax_right by nra | rewrite !Rmax_left by nra]; ring.
    + replace (Rmax l (Rmin r x)) with x by (rewrite Rmin_right by lra; rewrite Rmax_right by lra; reflexivity).
      assert (X1 : 1 <= x / l) by (apply Rmult_le_reg_r with l; [lra | rewrite Lx; lra]).
      assert (X2 : x / r <= 1) by (apply Rmult_le_reg_r with r; [lra | rewrite Lx; lra]).
      assert (Z : 1 <= (15000 / 14000 - x / r) / (15000 / 14000 - 1)) by lra.
      rewrite (Rmin_left 1) by (apply Rmin_glb; lra). rewrite Rmax_right by lra. ring.
Qed.

Lemma power_curve_continuous e : 0 < e_left e -> e_left e <= e_right e -> 0 <= e_p e (e_left e) -> 0 <= e_p e (e_right e) ->
  (forall x, e_left e <= x <= e_right e -> continuous (e_p e) x) -> forall x, continuous (engine_power_curve e) x.
Proof.
  intros L LR Pl Pr C x.
  eapply continuous_ext; [intros y; symmetry; now apply power_curve_formula|].
  apply (continuous_mult (K:=R_AbsRing) (fun y => e_p e (Rmax (e_left e) (Rmin (e_right e) y)))
    (fun y => Rmax 0 (Rmin 1 (Rmin (y / e_left e) ((15000 / 14000 - y / e_right e) / (15000 / 14000 - 1)))))).
  - apply (continuous_comp (fun y => Rmax (e_left e) (Rmin (e_right e) y)) (e_p e)).
    + apply continuous_Rmax; [apply continuous_const|]. apply continuous_Rmin; [apply continuous_const | apply continuous_id].
    + apply C. split; [apply Rmax_l|]. apply Rmax_lub; [exact LR | apply Rmin_l].
  - apply continuous_Rmax; [apply continuous_const|]. apply continuous_Rmin; [apply continuous_const|].
    apply continuous_Rmin.
    + apply continuous_scaled. apply continuous_id.
    + apply continuous_scaled.
      apply (continuous_minus (U:=R_UniformSpace) (V:=R_NormedModule)); [apply continuous_const|].
      apply continuous_scaled. apply continuous_id.
Qed.

(** Rotation matrices. *)
Lemma mapply_add Q a b : mapply Q (vadd a b) = vadd (mapply Q a) (mapply Q b).
Proof. apply vec_eq; unfold mapply, vadd, vscale; cbn; ring. Qed.
Lemma mapply_opp Q a : mapply Q (vopp a) = vopp (mapply Q a).
Proof. apply vec_eq; unfold mapply, vadd, vscale, vopp; cbn; ring. Qed.
Lemma mapply_scale Q k a : mapply Q (vscale k a) = vscale k (mapply Q a).
Proof. apply vec_eq; unfold mapply, vadd, vscale; cbn; ring. Qed.
Lemma rotation_norm Q a : rotation Q -> norm (mapply Q a) = norm a.
Proof.
  intros (E1 & E2 & E3 & E4 & E5 & E6 & _). unfold norm. f_equal.
  destruct Q as [[a1 a2 a3] [b1 b2 b3] [c1 c2 c3]], a as [x y z]. unfold mapply, dot, vadd, vscale in *; cbn in *.
  transitivity (x * x * (a1 * a1 + a2 * a2 + a3 * a3) + y * y * (b1 * b1 + b2 * b2 + b3 * b3) + z * z * (c1 * c1 + c2 * c2 + c3 * c3)
    + 2 * (x * y * (a1 * b1 + a2 * b2 + a3 * b3) + y * z * (b1 * c1 + b2 * c2 + b3 * c3) + x * z * (a1 * c1 + a2 * c2 + a3 * c3))); [ring|].
  rewrite E1, E2, E3, E4, E5, E6. ring.
Qed.
Lemma rotation_back Q a : rotation Q -> mapply Q (mtapply Q a) = a.
Proof.
  intros H. pose proof (right_handed_cross _ _ _ H) as [C1 C2]. destruct H as (E1 & _ & _ & _ & _ & _ & C3).
  destruct Q as [[t1 t2 t3] [n1 n2 n3] [b1 b2 b3]], a as [x y z]. unfold mapply, mtapply, dot, cross, vadd, vscale in *; cbn in *.
  injection C1 as A1 A2 A3. injection C2 as B1 B2 B3. injection C3 as D1 D2 D3.
  assert (det : t1 * (n2 * b3 - n3 * b2) + n1 * (b2 * t3 - b3 * t2) + b1 * (t2 * n3 - t3 * n2) = 1).
  { transitivity (t1 * (n2 * b3 - n3 * b2) + t2 * (n3 * b1 - n1 * b3) + t3 * (n1 * b2 - n2 * b1)); [ring|]. rewrite A1, A2, A3. exact E1. }
  assert (R11 : t1 * t1 + n1 * n1 + b1 * b1 = 1).
  { rewrite <- det. rewrite A1, B1, D1. ring. }
  assert (R22 : t2 * t2 + n2 * n2 + b2 * b2 = 1).
  { rewrite <- det. transitivity (t2 * (n3 * b1 - n1 * b3) + n2 * (b3 * t1 - b1 * t3) + b2 * (t3 * n1 - t1 * n3)); [rewrite A2, B2, D2; ring | ring]. }
  assert (R33 : t3 * t3 + n3 * n3 + b3 * b3 = 1).
  { rewrite <- det. transitivity (t3 * (n1 * b2 - n2 * b1) + n3 * (b1 * t2 - b2 * t1) + b3 * (t1 * n2 - t2 * n1)); [rewrite A3, B3, D3; ring | ring]. }
  assert (R12 : t1 * t2 + n1 * n2 + b1 * b2 = 0).
  { transitivity ((n2 * b3 - n3 * b2) * t2 + (b2 * t3 - b3 * t2) * n2 + (t2 * n3 - t3 * n2) * b2); [rewrite A1, B1, D1; ring | ring]. }
  assert (R13 : t1 * t3 + n1 * n3 + b1 * b3 = 0).
  { transitivity ((n2 * b3 - n3 * b2) * t3 + (b2 * t3 - b3 * t2) * n3 + (t2 * n3 - t3 * n2) * b3); [rewrite A1, B1, D1; ring | ring]. }
  assert (R23 : t2 * t3 + n2 * n3 + b2 * b3 = 0).
  { transitivity ((n3 * b1 - n1 * b3) * t3 + (b3 * t1 - b1 * t3) * n3 + (t3 * n1 - t1 * n3) * b3); [rewrite A2, B2, D2; ring | ring]. }
  f_equal.
  - transitivity ((t1 * t1 + n1 * n1 + b1 * b1) * x + (t1 * t2 + n1 * n2 + b1 * b2) * y + (t1 * t3 + n1 * n3 + b1 * b3) * z); [ring | rewrite R11, R12, R13; ring].
  - transitivity ((t1 * t2 + n1 * n2 + b1 * b2) * x + (t2 * t2 + n2 * n2 + b2 * b2) * y + (t2 * t3 + n2 * n3 + b2 * b3) * z); [ring | rewrite R12, R22, R23; ring].
  - transitivity ((t1 * t3 + n1 * n3 + b1 * b3) * x + (t2 * t3 + n2 * n3 + b2 * b3) * y + (t3 * t3 + n3 * n3 + b3 * b3) * z); [ring | rewrite R13, R23, R33; ring].
Qed.
Lemma norm_scale k a : 0 <= k -> norm (vscale k a) = k * norm a.
Proof.
  intros H. unfold norm. replace (dot (vscale k a) (vscale k a)) with (k * k * dot a a) by (unfold dot, vscale; cbn; ring).
  rewrite sqrt_mult_alt by nra. now rewrite sqrt_square.
Qed.
