(** Derivatives of the motion of a rigid body on a flat road. *)
From Coq Require Import Reals Lra.
From Coquelicot Require Import Coquelicot.
From Verif Require Import M_Vec S_Kart6.
Local Open Scope R_scope.

Lemma vec_ext : forall a b : vec, vx a = vx b -> vy a = vy b -> vz a = vz b -> a = b.
Proof. intros [a1 a2 a3] [b1 b2 b3]; cbn; intros; subst; reflexivity. Qed.

Lemma cos2 : forall t, cos t * cos t = 1 - sin t * sin t.
Proof. intro t. pose proof (sin2_cos2 t) as H. unfold Rsqr in H. lra. Qed.

(** auto_derive writes the functions expanded. *)
Ltac contract f := change (fun x : R => f x) with f.

(** A vector written in axes that turn with the heading. *)
Lemma vderive_turning : forall (psi s1 s2 s3 : R -> R) (t : R), ex_derive psi t -> ex_derive s1 t -> ex_derive s2 t -> ex_derive s3 t ->
  mtapply (rot_z (psi t)) (vderive (fun x => mapply (rot_z (psi x)) (V (s1 x) (s2 x) (s3 x))) t) =
  vadd (V (Derive s1 t) (Derive s2 t) (Derive s3 t)) (cross (V 0 0 (Derive psi t)) (V (s1 t) (s2 t) (s3 t))).
Proof.
  intros psi s1 s2 s3 t Hp H1 H2 H3.
  assert (E1 : Derive (fun x => vx (mapply (rot_z (psi x)) (V (s1 x) (s2 x) (s3 x)))) t =
    cos (psi t) * Derive s1 t - sin (psi t) * Derive s2 t
    - Derive psi t * (sin (psi t) * s1 t + cos (psi t) * s2 t)).
  { apply is_derive_unique. unfold mapply, vadd, vscale, rot_z; cbn [vx vy vz col1 col2 col3].
    auto_derive; [repeat split; assumption|]. contract psi; contract s1; contract s2; contract s3. ring. }
  assert (E2 : Derive (fun x => vy (mapply (rot_z (psi x)) (V (s1 x) (s2 x) (s3 x)))) t =
    sin (psi t) * Derive s1 t + cos (psi t) * Derive s2 t
    + Derive psi t * (cos (psi t) * s1 t - sin (psi t) * s2 t)).
  { apply is_derive_unique. unfold mapply, vadd, vscale, rot_z; cbn [vx vy vz col1 col2 col3].
    auto_derive; [repeat split; assumption|]. contract psi; contract s1; contract s2; contract s3. ring. }
  assert (E3 : Derive (fun x => vz (mapply (rot_z (psi x)) (V (s1 x) (s2 x) (s3 x)))) t = Derive s3 t).
  { apply Derive_ext. intro x. unfold mapply, vadd, vscale, rot_z; cbn [vx vy vz col1 col2 col3]. ring. }
  unfold vderive. rewrite E1, E2, E3.
  unfold mtapply, dot, rot_z, vadd, cross; cbn [vx vy vz col1 col2 col3].
  pose proof (cos2 (psi t)) as C.
  apply vec_ext; cbn [vx vy vz]; ring_simplify;
    replace (cos (psi t) ^ 2) with (1 - sin (psi t) ^ 2) by (simpl; lra); ring.
Qed.

Definition att (sp cp sm cm sf cf : R) : mat :=
  M3 (V (cp * cm) (sp * cm) (- sm)) (V (cp * sm * sf - sp * cf) (sp * sm * sf + cp * cf) (cm * sf))
     (V (cp * sm * cf + sp * sf) (sp * sm * cf - cp * sf) (cm * cf)).
Lemma attitude_eq : forall k t, attitude k t =
  att (sin (m_psi k t)) (cos (m_psi k t)) (sin (m_mu k t)) (cos (m_mu k t)) (sin (m_phi k t)) (cos (m_phi k t)).
Proof.
  intros k t. unfold attitude, att.
  replace (mmul (rot_y (m_mu k t)) (rot_x (m_phi k t))) with
    (M3 (V (cos (m_mu k t)) 0 (- sin (m_mu k t)))
        (V (sin (m_mu k t) * sin (m_phi k t)) (cos (m_phi k t)) (cos (m_mu k t) * sin (m_phi k t)))
        (V (sin (m_mu k t) * cos (m_phi k t)) (- sin (m_phi k t)) (cos (m_mu k t) * cos (m_phi k t)))).
  - unfold mmul, mapply, rot_z, vadd, vscale; cbn [vx vy vz col1 col2 col3].
    f_equal; apply vec_ext; cbn [vx vy vz]; ring.
  - unfold mmul, mapply, rot_y, rot_x, vadd, vscale; cbn [vx vy vz col1 col2 col3].
    f_equal; apply vec_ext; cbn [vx vy vz]; ring.
Qed.
Lemma angular_velocity_eq : forall k t, angular_velocity k t =
  V (- sin (m_psi k t) * Derive (m_mu k) t + cos (m_psi k t) * cos (m_mu k t) * Derive (m_phi k) t)
    (cos (m_psi k t) * Derive (m_mu k) t + sin (m_psi k t) * cos (m_mu k t) * Derive (m_phi k) t)
    (Derive (m_psi k) t - sin (m_mu k t) * Derive (m_phi k) t).
Proof.
  intros k t. unfold angular_velocity.
  replace (vadd (V 0 (Derive (m_mu k) t) 0) (mapply (rot_y (m_mu k t)) (V (Derive (m_phi k) t) 0 0)))
    with (V (cos (m_mu k t) * Derive (m_phi k) t) (Derive (m_mu k) t) (- sin (m_mu k t) * Derive (m_phi k) t)).
  - unfold mapply, rot_z, vadd, vscale; cbn [vx vy vz col1 col2 col3]. apply vec_ext; cbn [vx vy vz]; ring.
  - unfold mapply, rot_y, vadd, vscale; cbn [vx vy vz col1 col2 col3]. apply vec_ext; cbn [vx vy vz]; ring.
Qed.

Lemma vderive_ext : forall f g t, (forall x, f x = g x) -> vderive f t = vderive g t.
Proof. intros f g t H. unfold vderive. f_equal; apply Derive_ext; intro x; rewrite H; reflexivity. Qed.

(** The vector of derivatives is the angular velocity times the body. *)
Lemma attitude_velocity : forall k p (t : R), ex_derive (m_psi k) t -> ex_derive (m_mu k) t -> ex_derive (m_phi k) t ->
  vderive (fun s => mapply (attitude k s) p) t = cross (angular_velocity k t) (mapply (attitude k t) p).
Proof.
  intros k p t Hp Hm Hf.
  rewrite (vderive_ext _ _ t (fun s => f_equal (fun a => mapply a p) (attitude_eq k s))).
  rewrite attitude_eq, angular_velocity_eq.
  destruct k as [X Y psi z mu phi]; destruct p as [p1 p2 p3]; cbn [m_psi m_mu m_phi] in *.
  unfold vderive, mapply, att, cross, vadd, vscale; cbn [vx vy vz col1 col2 col3].
  pose proof (cos2 (psi t)) as C1; pose proof (cos2 (mu t)) as C2.
  apply vec_ext; cbn [vx vy vz]; apply is_derive_unique; (auto_derive; [repeat split; assumption|]);
    contract psi; contract mu; contract phi;
    generalize dependent (Derive psi t); generalize dependent (Derive mu t); generalize dependent (Derive phi t);
    generalize dependent (sin (psi t)); generalize dependent (cos (psi t));
    generalize dependent (sin (mu t)); generalize dependent (cos (mu t));
    generalize (sin (phi t)) (cos (phi t)); intros sf cf cm sm C2 cp sp C1 dphi dmu dpsi;
    ring [C1 C2].
Qed.

(** The spin in axes that turn with the heading. *)
Definition spin_road (Ixx Iyy Izz Ixz phi mu dphi dmu om : R) : vec :=
  let p := dphi - sin mu * om in
  let q := cos phi * dmu + sin phi * cos mu * om in
  let r := - sin phi * dmu + cos phi * cos mu * om in
  let l1 := Ixx * p - Ixz * r in let l2 := Iyy * q in let l3 := Izz * r - Ixz * p in
  V (cos mu * l1 + sin mu * (sin phi * l2 + cos phi * l3)) (cos phi * l2 - sin phi * l3)
    (- sin mu * l1 + cos mu * (sin phi * l2 + cos phi * l3)).
Definition sx Ixx Iyy Izz Ixz phi mu dphi dmu om := vx (spin_road Ixx Iyy Izz Ixz phi mu dphi dmu om).
Definition sy Ixx Iyy Izz Ixz phi mu dphi dmu om := vy (spin_road Ixx Iyy Izz Ixz phi mu dphi dmu om).
Definition sz Ixx Iyy Izz Ixz phi mu dphi dmu om := vz (spin_road Ixx Iyy Izz Ixz phi mu dphi dmu om).

Lemma body_rates : forall k t, mtapply (attitude k t) (angular_velocity k t) =
  V (Derive (m_phi k) t - sin (m_mu k t) * Derive (m_psi k) t)
    (cos (m_phi k t) * Derive (m_mu k) t + sin (m_phi k t) * cos (m_mu k t) * Derive (m_psi k) t)
    (- sin (m_phi k t) * Derive (m_mu k) t + cos (m_phi k t) * cos (m_mu k t) * Derive (m_psi k) t).
Proof.
  intros k t. rewrite attitude_eq, angular_velocity_eq.
  pose proof (cos2 (m_psi k t)) as C1; pose proof (cos2 (m_mu k t)) as C2.
  unfold mtapply, att, dot; cbn [vx vy vz col1 col2 col3].
  generalize dependent (Derive (m_psi k) t); generalize dependent (Derive (m_mu k) t); generalize dependent (Derive (m_phi k) t);
  generalize dependent (sin (m_psi k t)); generalize dependent (cos (m_psi k t));
  generalize dependent (sin (m_mu k t)); generalize dependent (cos (m_mu k t));
  generalize (sin (m_phi k t)) (cos (m_phi k t)); intros sf cf cm sm C2 cp sp C1 dphi dmu dpsi.
  apply vec_ext; cbn [vx vy vz]; ring [C1 C2].
Qed.

Lemma spin_eq : forall Ixx Iyy Izz Ixz k t, spin (inertia Ixx Iyy Izz Ixz) k t =
  mapply (rot_z (m_psi k t))
    (spin_road Ixx Iyy Izz Ixz (m_phi k t) (m_mu k t) (Derive (m_phi k) t) (Derive (m_mu k) t) (Derive (m_psi k) t)).
Proof.
  intros Ixx Iyy Izz Ixz k t. unfold spin. rewrite body_rates, attitude_eq.
  unfold mapply at 2, inertia, spin_road, vadd, vscale; cbn [vx vy vz col1 col2 col3].
  unfold mapply, att, rot_z, vadd, vscale; cbn [vx vy vz col1 col2 col3].
  apply vec_ext; cbn [vx vy vz]; ring.
Qed.

Lemma vec_eta : forall v : vec, v = V (vx v) (vy v) (vz v).
Proof. intros []; reflexivity. Qed.

Lemma mtapply_add : forall m a b, mtapply m (vadd a b) = vadd (mtapply m a) (mtapply m b).
Proof. intros m a b. unfold mtapply, vadd, dot; cbn [vx vy vz]; apply vec_ext; cbn [vx vy vz]; ring. Qed.
Lemma turn_cross : forall psi d m a, mtapply (rot_z psi) (cross (V 0 0 d) (vscale m a)) =
  cross (V 0 0 d) (vscale m (mtapply (rot_z psi) a)).
Proof.
  intros. unfold mtapply, cross, rot_z, dot, vscale; cbn [vx vy vz col1 col2 col3].
  apply vec_ext; cbn [vx vy vz]; ring.
Qed.

Lemma needed_moment_eq : forall m h Ixx Iyy Izz Ixz k (t : R),
  ex_derive (m_psi k) t -> ex_derive (m_mu k) t -> ex_derive (m_phi k) t ->
  ex_derive (Derive (m_psi k)) t -> ex_derive (Derive (m_mu k)) t -> ex_derive (Derive (m_phi k)) t ->
  let S1 s := sx Ixx Iyy Izz Ixz (m_phi k s) (m_mu k s) (Derive (m_phi k) s) (Derive (m_mu k) s) (Derive (m_psi k) s) in
  let S2 s := sy Ixx Iyy Izz Ixz (m_phi k s) (m_mu k s) (Derive (m_phi k) s) (Derive (m_mu k) s) (Derive (m_psi k) s) in
  let S3 s := sz Ixx Iyy Izz Ixz (m_phi k s) (m_mu k s) (Derive (m_phi k) s) (Derive (m_mu k) s) (Derive (m_psi k) s) in
  needed_moment m h (inertia Ixx Iyy Izz Ixz) k t =
  vadd (vadd (V (Derive S1 t) (Derive S2 t) (Derive S3 t)) (cross (V 0 0 (Derive (m_psi k) t)) (V (S1 t) (S2 t) (S3 t))))
       (cross (V 0 0 (m_z k t - h)) (vscale m (needed_acceleration h k t))).
Proof.
  intros m h Ixx Iyy Izz Ixz k t H1 H2 H3 H4 H5 H6 S1 S2 S3.
  unfold needed_moment. rewrite mtapply_add.
  replace (vsub (mass_centre h k t) (ground_point k t)) with (V 0 0 (m_z k t - h)).
  2:{ unfold vsub, mass_centre, ground_point; cbn [vx vy vz]. apply vec_ext; cbn [vx vy vz]; ring. }
  rewrite turn_cross. fold (needed_acceleration h k t). f_equal.
  rewrite (vderive_ext _ (fun s => mapply (rot_z (m_psi k s)) (V (S1 s) (S2 s) (S3 s)))).
  2:{ intro s. rewrite spin_eq. f_equal. }
  apply vderive_turning; [assumption| | |]; destruct k as [X Y psi z mu phi]; cbn [m_psi m_mu m_phi] in *;
    unfold S1, S2, S3, sx, sy, sz, spin_road; cbn [vx vy vz];
    set (dpsi := Derive psi) in *; set (dmu := Derive mu) in *; set (dphi := Derive phi) in *;
    auto_derive; repeat split; assumption.
Qed.

(** The acceleration of the centre of mass. *)
Lemma needed_acceleration_eq : forall h k (u v : R -> R) (t : R),
  (forall s, is_derive (m_x k) s (u s * cos (m_psi k s) - v s * sin (m_psi k s))) ->
  (forall s, is_derive (m_y k) s (u s * sin (m_psi k s) + v s * cos (m_psi k s))) ->
  ex_derive (m_psi k) t -> ex_derive u t -> ex_derive v t ->
  needed_acceleration h k t =
  V (Derive u t - Derive (m_psi k) t * v t) (Derive v t + Derive (m_psi k) t * u t) (Derive (Derive (m_z k)) t).
Proof.
  intros h k u v t HX HY Hp Hu Hv. unfold needed_acceleration.
  assert (Ez : forall s, Derive (fun x => m_z k x - h) s = Derive (m_z k) s).
  { intro s. unfold Derive. f_equal. apply Lim_ext. intro e. f_equal. ring. }
  rewrite (vderive_ext (vderive (mass_centre h k)) (fun s => V (u s * cos (m_psi k s) - v s * sin (m_psi k s))
    (u s * sin (m_psi k s) + v s * cos (m_psi k s)) (Derive (m_z k) s))).
  2:{ intro s. unfold vderive, mass_centre; cbn [vx vy vz]. rewrite Ez. f_equal; apply is_derive_unique; [apply HX|apply HY]. }
  destruct k as [X Y psi z mu phi]; cbn [m_x m_y m_psi m_z] in *.
  set (w := Derive z). unfold vderive; cbn [vx vy vz]. change (fun s => w s) with w.
  assert (E1 : Derive (fun s => u s * cos (psi s) - v s * sin (psi s)) t =
    Derive u t * cos (psi t) - u t * Derive psi t * sin (psi t) - Derive v t * sin (psi t) - v t * Derive psi t * cos (psi t)).
  { apply is_derive_unique. auto_derive; [repeat split; assumption|]. contract u; contract v; contract psi. ring. }
  assert (E2 : Derive (fun s => u s * sin (psi s) + v s * cos (psi s)) t =
    Derive u t * sin (psi t) + u t * Derive psi t * cos (psi t) + Derive v t * cos (psi t) - v t * Derive psi t * sin (psi t)).
  { apply is_derive_unique. auto_derive; [repeat split; assumption|]. contract u; contract v; contract psi. ring. }
  rewrite E1, E2.
  pose proof (cos2 (psi t)) as C. unfold mtapply, dot, rot_z; cbn [vx vy vz col1 col2 col3].
  apply vec_ext; cbn [vx vy vz]; ring [C].
Qed.
