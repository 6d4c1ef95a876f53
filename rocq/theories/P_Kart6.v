(** C110, C111: the equations of motion and the geometry of the kart. *)
From Coq Require Import Reals Lra.
From Coquelicot Require Import Coquelicot.
From Verif Require Import M_Vec M_Tire M_Car M_Kart6 S_Kart6 L_Kart6.
Local Open Scope R_scope.

(** The state the kart is given at time [t] of a small motion with velocities [u] and [v]. *)
Definition state_of (u v : R -> R) (k : motion) (t : R) : state6 :=
  MkState6 (u t) (v t) (Derive (m_psi k) t) (m_z k t) (Derive (m_z k) t) (m_mu k t) (Derive (m_mu k) t)
           (m_phi k t) (Derive (m_phi k) t).

(** *** C110: Newton's law *)
Theorem C110_newton_partial : forall c k u v (t : R) F, rolls_on k u v -> k_mass c <> 0 ->
  ex_derive (m_psi k) t -> ex_derive u t -> ex_derive v t ->
  (newton6 c (state_of u v k t) F = V (Derive u t) (Derive v t) (Derive (Derive (m_z k)) t) <->
   F = vscale (k_mass c) (needed_acceleration (- vz (k_com c)) k t)).
Proof.
  intros c k u v t [F1 F2 F3] [HX HY] Hm Hp Hu Hv.
  rewrite (needed_acceleration_eq _ _ u v t HX HY Hp Hu Hv).
  unfold newton6, newton_lhs, state_of, vadd, vopp, vscale, cross; cbn [q_u q_v q_omega vx vy vz].
  generalize (Derive u t) (Derive v t) (Derive (m_psi k) t) (Derive (Derive (m_z k)) t). intros du dv om d2z.
  split; intro H.
  - injection H as H1 H2 H3. subst. apply vec_ext; cbn [vx vy vz]; field; assumption.
  - injection H as H1 H2 H3. subst. apply vec_ext; cbn [vx vy vz]; field; assumption.
Qed.

(** *** C110: Euler's law, to first order in height, pitch, roll and lateral velocity *)
Section Small.
Context (Ixx Iyy Izz Ixz : R) (psi a b : R -> R) (t : R).
Context (Hp : smooth2 psi) (Ha : smooth2 a) (Hb : smooth2 b).

Let om := Derive psi.
Let a' := Derive a.
Let b' := Derive b.

Ltac spin_proof :=
  destruct (Hp t) as [Hp1 Hp2], (Ha t) as [Ha1 Ha2], (Hb t) as [Hb1 Hb2];
  fold om in Hp2; fold a' in Ha2; fold b' in Hb2;
  unfold agree1; eexists; split;
  [ intro e; unfold sx, sy, sz, spin_road; cbn [vx vy vz]; apply is_derive_unique;
    auto_derive; [repeat split; assumption|]; contract a; contract b; contract om; contract a'; contract b'; reflexivity
  | split; [cbv beta; rewrite !Rmult_0_l, ?sin_0, ?cos_0; ring
           | auto_derive; [repeat split|]; rewrite !Rmult_0_l, ?sin_0, ?cos_0; change (Derive a t) with (a' t); change (Derive b t) with (b' t); ring] ].

Lemma spin_x_small : exists E : R -> R,
  (forall e, Derive (fun s => sx Ixx Iyy Izz Ixz (e * a s) (e * b s) (e * a' s) (e * b' s) (om s)) t = E e) /\
  E 0 = - Ixz * Derive om t /\
  is_derive E 0 (Ixx * Derive a' t + (Izz - Ixx) * (b' t * om t + b t * Derive om t)).
Proof. spin_proof. Qed.
Lemma spin_y_small : exists E : R -> R,
  (forall e, Derive (fun s => sy Ixx Iyy Izz Ixz (e * a s) (e * b s) (e * a' s) (e * b' s) (om s)) t = E e) /\
  E 0 = 0 /\
  is_derive E 0 (Iyy * Derive b' t + (Iyy - Izz) * (a' t * om t + a t * Derive om t)).
Proof. spin_proof. Qed.
Lemma spin_z_small : exists E : R -> R,
  (forall e, Derive (fun s => sz Ixx Iyy Izz Ixz (e * a s) (e * b s) (e * a' s) (e * b' s) (om s)) t = E e) /\
  E 0 = Izz * Derive om t /\
  is_derive E 0 (- Ixz * Derive a' t + 2 * Ixz * (b' t * om t + b t * Derive om t)).
Proof. spin_proof. Qed.
End Small.

(** Total torque and needed moment agree to first order. *)
Theorem C110_euler_partial : forall c (psi a b cz d u : R -> R) X Y (t : R) (T : R -> vec),
  smooth2 psi -> smooth2 a -> smooth2 b -> smooth2 cz -> (forall s : R, ex_derive u s) -> (forall s : R, ex_derive d s) ->
  k_Izx c = k_Ixz c ->
  (forall e, rolls_on (small_motion (X e) (Y e) psi cz b a e) u (fun s => e * d s)) ->
  let k e := small_motion (X e) (Y e) psi cz b a e in
  (forall e, euler6 c (state_of u (fun s => e * d s) (k e) t) (Derive u t) (Derive (fun s => e * d s) t) (T e)
               (V (Derive (Derive (m_phi (k e))) t) (Derive (Derive (m_mu (k e))) t) (Derive (Derive psi) t))) ->
  vagree1 T (fun e => needed_moment (k_mass c) (- vz (k_com c)) (inertia (k_Ixx c) (k_Iyy c) (k_Izz c) (k_Ixz c)) (k e) t).
Proof.
  intros c psi a b cz d u X Y t T Hp Ha Hb Hc Hu Hd HI Hr k HT.
  destruct c as [m Ixx Iyy Izz Ixz Izx com front rear]; cbn [k_mass k_Ixx k_Iyy k_Izz k_Ixz k_Izx k_com] in *. subst Izx.
  set (h := - vz com) in *.
  assert (HTe : forall e, T e = euler_moment (MkChassis6 m Ixx Iyy Izz Ixz Ixz com front rear)
     (state_of u (fun s => e * d s) (k e) t) (Derive u t) (e * Derive d t)
     (V (e * Derive (Derive a) t) (e * Derive (Derive b) t) (Derive (Derive psi) t))).
  { intro e. specialize (HT e). unfold euler6 in HT. unfold euler_moment.
    rewrite Derive_scal in HT.
    replace (Derive (Derive (m_phi (k e))) t) with (e * Derive (Derive a) t) in HT.
    2:{ rewrite <- Derive_scal. apply Derive_ext. intro s. unfold k; cbn [m_phi small_motion]. rewrite Derive_scal. reflexivity. }
    replace (Derive (Derive (m_mu (k e))) t) with (e * Derive (Derive b) t) in HT.
    2:{ rewrite <- Derive_scal. apply Derive_ext. intro s. unfold k; cbn [m_mu small_motion]. rewrite Derive_scal. reflexivity. }
    rewrite HT. unfold vadd, vopp. apply vec_ext; cbn [vx vy vz]; ring. }
  assert (HN : forall e, needed_moment m h (inertia Ixx Iyy Izz Ixz) (k e) t =
     vadd (vadd (V (Derive (fun s => sx Ixx Iyy Izz Ixz (e * a s) (e * b s) (e * Derive a s) (e * Derive b s) (Derive psi s)) t)
                   (Derive (fun s => sy Ixx Iyy Izz Ixz (e * a s) (e * b s) (e * Derive a s) (e * Derive b s) (Derive psi s)) t)
                   (Derive (fun s => sz Ixx Iyy Izz Ixz (e * a s) (e * b s) (e * Derive a s) (e * Derive b s) (Derive psi s)) t))
                (cross (V 0 0 (Derive psi t))
                   (spin_road Ixx Iyy Izz Ixz (e * a t) (e * b t) (e * Derive a t) (e * Derive b t) (Derive psi t))))
          (cross (V 0 0 (e * cz t - h)) (vscale m (V (Derive u t - Derive psi t * (e * d t)) (e * Derive d t + Derive psi t * u t)
             (e * Derive (Derive cz) t))))).
  { intro e.
    replace (e * Derive (Derive cz) t) with (Derive (Derive (fun s => e * cz s)) t)
      by (rewrite <- Derive_scal; apply Derive_ext; intro s; apply Derive_scal). destruct (Hp t) as [Hp1 Hp2], (Ha t) as [Ha1 Ha2], (Hb t) as [Hb1 Hb2].
    destruct (Hr e) as [HX HY].
    assert (Da : forall s, Derive (fun r => e * a r) s = e * Derive a s) by (intro s; apply Derive_scal).
    assert (Db : forall s, Derive (fun r => e * b r) s = e * Derive b s) by (intro s; apply Derive_scal).
    rewrite needed_moment_eq.
    - rewrite (needed_acceleration_eq h (k e) u (fun s => e * d s) t HX HY Hp1 (Hu t)).
      2:{ auto_derive. exact (Hd t). }
      rewrite Derive_scal. unfold k; cbn [m_psi m_mu m_phi m_z small_motion]. f_equal. f_equal.
      + f_equal; apply Derive_ext; intro s; rewrite Da, Db; reflexivity.
      + rewrite Da, Db. reflexivity.
    - exact Hp1.
    - unfold k; cbn [m_mu small_motion]. auto_derive. exact Hb1.
    - unfold k; cbn [m_phi small_motion]. auto_derive. exact Ha1.
    - exact Hp2.
    - unfold k; cbn [m_mu small_motion]. eapply ex_derive_ext; [intro s; symmetry; apply Db|].
      cbv beta. set (b' := Derive b) in *. auto_derive. exact Hb2.
    - unfold k; cbn [m_phi small_motion]. eapply ex_derive_ext; [intro s; symmetry; apply Da|].
      cbv beta. set (a' := Derive a) in *. auto_derive. exact Ha2. }
  destruct (spin_x_small Ixx Iyy Izz Ixz psi a b t Hp Ha Hb) as (E1 & HE1 & H10 & H11).
  destruct (spin_y_small Ixx Iyy Izz Ixz psi a b t Hp Ha Hb) as (E2 & HE2 & H20 & H21).
  destruct (spin_z_small Ixx Iyy Izz Ixz psi a b t Hp Ha Hb) as (E3 & HE3 & H30 & H31).
  assert (X1 : ex_derive E1 0) by (eexists; exact H11).
  assert (X2 : ex_derive E2 0) by (eexists; exact H21).
  assert (X3 : ex_derive E3 0) by (eexists; exact H31).
  apply is_derive_unique in H11. apply is_derive_unique in H21. apply is_derive_unique in H31.
  assert (Dc : forall e, Derive (fun r => e * cz r) t = e * Derive cz t) by (intro; apply Derive_scal).
  assert (Da : forall e, Derive (fun r => e * a r) t = e * Derive a t) by (intro; apply Derive_scal).
  assert (Db : forall e, Derive (fun r => e * b r) t = e * Derive b t) by (intro; apply Derive_scal).
  assert (HS : forall e, state_of u (fun s => e * d s) (k e) t =
     MkState6 (u t) (e * d t) (Derive psi t) (e * cz t) (e * Derive cz t) (e * b t) (e * Derive b t) (e * a t) (e * Derive a t)).
  { intro e. unfold state_of, k; cbn [m_psi m_mu m_phi m_z small_motion]. rewrite Da, Db, Dc. reflexivity. }
  assert (G : forall (f g f' g' : R -> R), (forall e, f e = f' e) -> (forall e, g e = g' e) -> agree1 f' g' -> agree1 f g).
  { intros f g f' g' Hf Hg [P1 P2]. split; [rewrite Hf, Hg; exact P1|].
    eapply is_derive_ext; [|exact P2]. intro e. rewrite Hf, Hg. reflexivity. }
  split; [|split];
    (eapply G; [intro e; rewrite HTe, HS; unfold euler_moment, euler_m, euler_lhs, mapply, vadd, vscale;
                cbn [vx vy vz col1 col2 col3 q_u q_v q_omega q_z q_dz q_mu q_dmu q_phi q_dphi k_mass k_Ixx k_Iyy k_Izz k_Ixz k_Izx k_com]; fold h; reflexivity
               |intro e; rewrite HN, HE1, HE2, HE3; unfold spin_road, vadd, vscale, cross; cbn [vx vy vz]; reflexivity|]);
    (split; [cbv beta; rewrite ?H10, ?H20, ?H30, ?Rmult_0_l, ?sin_0, ?cos_0; ring|]);
    (auto_derive; [repeat split; assumption|]);
    contract E1; contract E2; contract E3; rewrite ?H11, ?H21, ?H31, ?Rmult_0_l, ?sin_0, ?cos_0; ring.
Qed.

(** The hypotheses hold of a kart that turns while it rolls, pitches, heaves and slides. *)
Lemma smooth2_intro : forall f f' f'' : R -> R, (forall s, is_derive f s (f' s)) -> (forall s, is_derive f' s (f'' s)) -> smooth2 f.
Proof.
  intros f f' f'' H1 H2 s. split; [eexists; apply H1|].
  apply ex_derive_ext with f'; [intro r; symmetry; apply is_derive_unique, H1|]. eexists; apply H2.
Qed.
Example C110_example : let psi := fun s : R => s in let u := fun _ : R => 10 in let d := fun _ : R => 1 in
  let X e := fun s => 10 * sin s + e * cos s in let Y e := fun s => - 10 * cos s + e * sin s in
  smooth2 psi /\ smooth2 sin /\ smooth2 cos /\ (forall s : R, ex_derive u s) /\ (forall s : R, ex_derive d s) /\
  (forall e, rolls_on (small_motion (X e) (Y e) psi sin cos sin e) u (fun s => e * d s)) /\
  (exists T, forall e, euler6 (MkChassis6 300 20 15 25 5 5 (V 0 0 (- 1 / 4)) (V 1 0 0) (V (- 1) 0 0))
      (state_of u (fun s => e * d s) (small_motion (X e) (Y e) psi sin cos sin e) 0) (Derive u 0) (Derive (fun s => e * d s) 0) (T e)
      (V (Derive (Derive (fun s => e * sin s)) 0) (Derive (Derive (fun s => e * cos s)) 0) (Derive (Derive psi) 0))).
Proof.
  intros psi u d X Y. subst psi u d X Y.
  split; [|split; [|split; [|split; [|split; [|split]]]]].
  - apply smooth2_intro with (fun _ => 1) (fun _ => 0); intro; auto_derive; auto; ring.
  - apply smooth2_intro with cos (fun x => - sin x); intro; auto_derive; auto; ring.
  - apply smooth2_intro with (fun x => - sin x) (fun x => - cos x); intro; auto_derive; auto; ring.
  - intro. auto_derive. exact I.
  - intro. auto_derive. exact I.
  - intro e. split; intro s; unfold small_motion; cbn [m_x m_y m_psi]; auto_derive; auto; ring.
  - eexists. intro e. unfold euler6.
    instantiate (1 := fun e => _). cbv beta.
    match goal with |- ?a = vadd (vopp ?b) _ => instantiate (1 := vadd a b) end.
    unfold vadd, vopp; cbn [vx vy vz]. apply vec_ext; cbn [vx vy vz]; ring.
Qed.

(** With a lateral velocity that is not small the equations are not exact to first order: the
    height enters only some of the terms. *)
Theorem C110_lateral_velocity_refuted : exists c (psi a b cz v u : R -> R) X Y (t : R),
  smooth2 psi /\ smooth2 a /\ smooth2 b /\ smooth2 cz /\ (forall s : R, ex_derive u s) /\ (forall s : R, ex_derive v s) /\
  k_Izx c = k_Ixz c /\ 0 < k_mass c /\ vz (k_com c) < 0 /\
  let k e := small_motion X Y psi cz b a e in
  (forall e, rolls_on (k e) u v) /\
  forall T : R -> vec,
  (forall e, euler6 c (state_of u v (k e) t) (Derive u t) (Derive v t) (T e)
               (V (Derive (Derive (m_phi (k e))) t) (Derive (Derive (m_mu (k e))) t) (Derive (Derive psi) t))) ->
  ~ vagree1 T (fun e => needed_moment (k_mass c) (- vz (k_com c)) (inertia (k_Ixx c) (k_Iyy c) (k_Izz c) (k_Ixz c)) (k e) t).
Proof.
  exists (MkChassis6 1 1 1 1 0 0 (V 0 0 (- 1)) (V 1 0 0) (V (- 1) 0 0)), (fun s => s), (fun _ => 0), (fun _ => 0), (fun _ => 1),
    (fun _ => 1), (fun _ => 0), cos, sin, 0.
  assert (S0 : forall q : R, smooth2 (fun _ => q)).
  { intro q. apply smooth2_intro with (fun _ => 0) (fun _ => 0); intro; auto_derive; auto; ring. }
  split; [apply smooth2_intro with (fun _ => 1) (fun _ => 0); intro; auto_derive; auto; ring|].
  do 3 (split; [apply S0|]). do 2 (split; [intro; auto_derive; exact I|]).
  split; [reflexivity|]. split; [cbn; lra|]. split; [cbn; lra|].
  intro k.
  assert (HR : forall e, rolls_on (k e) (fun _ => 0) (fun _ => 1)).
  { intro e. split; intro s; unfold k, small_motion; cbn [m_x m_y m_psi]; auto_derive; auto; ring. }
  split; [exact HR|]. intros T HT (_ & [_ A] & _).
  assert (D0 : forall (q s : R), Derive (fun _ => q) s = 0) by (intros; apply Derive_const).
  assert (D1 : forall s, Derive (fun x => x) s = 1) by (intro; apply Derive_id).
  assert (Z : forall e q s : R, Derive (fun _ => e * q) s = 0) by (intros; apply Derive_const).
  assert (Z2 : forall e q s : R, Derive (Derive (fun _ => e * q)) s = 0).
  { intros. rewrite (Derive_ext _ (fun _ => 0)); [apply D0|intro; apply Z]. }
  assert (Z1 : forall s, Derive (Derive (fun x => x)) s = 0).
  { intros. rewrite (Derive_ext _ (fun _ => 1)); [apply D0|intro; apply D1]. }
  assert (Et : forall e, vy (T e) = 1).
  { intro e. specialize (HT e). unfold euler6 in HT. apply (f_equal vy) in HT. revert HT.
    unfold euler_m, euler_lhs, state_of, k, small_motion, mapply, vadd, vopp, vscale;
      cbn [vx vy vz col1 col2 col3 q_u q_v q_omega q_z q_dz q_mu q_dmu q_phi q_dphi m_psi m_mu m_phi m_z
           k_mass k_Ixx k_Iyy k_Izz k_Ixz k_Izx k_com]. rewrite ?Z2, ?Z1, ?D0, ?D1, ?Z. intro H. lra. }
  assert (En : forall e, vy (needed_moment 1 (- - 1) (inertia 1 1 1 0) (k e) 0) = 1 - e).
  { intro e. rewrite needed_moment_eq.
    - rewrite (needed_acceleration_eq (- - 1) (k e) (fun _ => 0) (fun _ => 1) 0 (proj1 (HR e)) (proj2 (HR e))).
      + unfold k, small_motion; cbn [m_psi m_mu m_phi m_z].
        unfold vadd, cross, vscale; cbn [vx vy vz].
        rewrite (Derive_ext (fun s => sy 1 1 1 0 (e * 0) (e * 0) (Derive (fun _ => e * 0) s) (Derive (fun _ => e * 0) s) (Derive (fun x => x) s))
          (fun _ => 0)).
        * rewrite ?Z2, ?Z1, ?D0, ?D1, ?Z. unfold sx, spin_road; cbn [vx vy vz]. rewrite ?Rmult_0_r, ?sin_0, ?cos_0. lra.
        * intro s. rewrite Z, D1. unfold sy, spin_road; cbn [vx vy vz]. rewrite ?Rmult_0_r, ?sin_0, ?cos_0. lra.
      + unfold k, small_motion; cbn [m_psi]. auto_derive. exact I.
      + auto_derive. exact I.
      + auto_derive. exact I.
    - unfold k, small_motion; cbn [m_psi]. auto_derive. exact I.
    - unfold k, small_motion; cbn [m_mu]. auto_derive. exact I.
    - unfold k, small_motion; cbn [m_phi]. auto_derive. exact I.
    - unfold k, small_motion; cbn [m_psi]. apply ex_derive_ext with (fun _ => 1); [intro; symmetry; apply D1|]. auto_derive. exact I.
    - unfold k, small_motion; cbn [m_mu]. apply ex_derive_ext with (fun _ => 0); [intro; symmetry; apply Z|]. auto_derive. exact I.
    - unfold k, small_motion; cbn [m_phi]. apply ex_derive_ext with (fun _ => 0); [intro; symmetry; apply Z|]. auto_derive. exact I. }
  cbn [k_mass k_com k_Ixx k_Iyy k_Izz k_Ixz vz] in A.
  assert (A' : is_derive (fun e : R => e) 0 0).
  { eapply is_derive_ext; [|exact A]. intro e. cbv beta. rewrite Et, En. change (1 - (1 - e) = e). ring. }
  apply is_derive_unique in A'. rewrite Derive_id in A'. lra.
Qed.

(** The equations give one and only one angular acceleration unless the pitch is large, and
    otherwise they do not: the limit is that of the inertia of the chassis. *)
Theorem C110_accelerations_determined : forall c q du dv T, k_Iyy c <> 0 ->
  (k_Ixx c * k_Izz c - k_Ixz c * k_Ixz c + q_mu q * k_Ixz c * (k_Ixx c + k_Izz c) <> 0 <->
   exists! acc, euler6 c q du dv T acc).
Proof.
  intros [m Ixx Iyy Izz Ixz Izx com front rear] q du dv T Hy.
  cbn [k_Ixx k_Iyy k_Izz k_Ixz] in *.
  set (D := Ixx * Izz - Ixz * Ixz + q_mu q * Ixz * (Ixx + Izz)).
  unfold euler6. generalize (vadd (vopp (euler_lhs (MkChassis6 m Ixx Iyy Izz Ixz Izx com front rear) q du dv)) T). intros [r1 r2 r3].
  unfold mapply, euler_m, vadd, vscale; cbn [vx vy vz col1 col2 col3 k_Ixx k_Iyy k_Izz k_Ixz].
  set (mu := q_mu q) in *. set (phi := q_phi q).
  split.
  - intro HD.
    set (z := (Ixx * r3 + Ixz * r1) / D).
    set (y := (r2 - (Iyy - Izz) * phi * z) / Iyy).
    set (x := ((Izz + 2 * Ixz * mu) * r1 + ((Ixx - Izz) * mu + Ixz) * r3) / D).
    exists (V x y z). split.
    + cbn [vx vy vz]. unfold x, y, z.
      apply vec_ext; cbn [vx vy vz]; unfold D in *; field; auto.
    + intros [x' y' z'] H. cbn [vx vy vz] in H. injection H as E1 E2 E3.
      assert (Z : z' = z).
      { unfold z. apply (Rmult_eq_reg_r D); [|exact HD]. field_simplify; [|exact HD]. rewrite <- E1, <- E3. unfold D. ring. }
      assert (Y : y' = y).
      { unfold y. apply (Rmult_eq_reg_r Iyy); [|exact Hy]. field_simplify; [|exact Hy]. rewrite <- Z, <- E2. ring. }
      assert (X : x' = x).
      { unfold x. apply (Rmult_eq_reg_r D); [|exact HD]. field_simplify; [|exact HD]. rewrite <- E1, <- E3. unfold D. ring. }
      rewrite X, Y, Z. reflexivity.
  - intros [[x y z] [HE HU]] HD. cbn [vx vy vz] in HE. injection HE as E1 E2 E3.
    (* a vector in the kernel *)
    assert (K : exists n1 n2 n3, (n1 <> 0 \/ n2 <> 0 \/ n3 <> 0) /\
       n1 * Ixx + n2 * 0 + n3 * (- (Ixx - Izz) * mu - Ixz) = 0 /\
       n1 * 0 + n2 * Iyy + n3 * ((Iyy - Izz) * phi) = 0 /\
       n1 * - Ixz + n2 * 0 + n3 * (Izz + 2 * Ixz * mu) = 0).
    { destruct (Req_dec Ixx 0) as [A|A].
      - destruct (Req_dec Ixz 0) as [B|B].
        + exists 1, 0, 0. subst. repeat split; try ring. left; lra.
        + exists (Izz + 2 * Ixz * mu), (- (Ixz * ((Iyy - Izz) * phi)) / Iyy), Ixz. split; [right; right; exact B|].
          repeat split.
          * transitivity D; [|exact HD]. unfold D. fold mu. rewrite A. field. exact Hy.
          * field. exact Hy.
          * field. exact Hy.
      - exists ((Ixx - Izz) * mu + Ixz), (- (Ixx * ((Iyy - Izz) * phi)) / Iyy), Ixx. split; [right; right; exact A|].
        repeat split.
        + field. exact Hy.
        + field. exact Hy.
        + transitivity D; [|exact HD]. unfold D. fold mu. field. exact Hy. }
    destruct K as (n1 & n2 & n3 & Hn & K1 & K2 & K3).
    assert (Q : V x y z = V (x + n1) (y + n2) (z + n3)).
    { apply HU. cbn [vx vy vz]. apply vec_ext; cbn [vx vy vz].
      - rewrite <- E1. lra.
      - rewrite <- E2. lra.
      - rewrite <- E3. lra. }
    injection Q as Q1 Q2 Q3. destruct Hn as [N|[N|N]]; apply N; lra.
Qed.

(** *** C111: where the wheels are *)

(** The heights of the wheels and their vertical velocities are those of a rigid body to first
    order. [xa] is the centre of an axle and [y] the position of a wheel along it. *)
Theorem C111_wheel_heights_partial : forall c (psi a b cz d u : R -> R) X Y (t : R) xa y,
  smooth2 psi -> smooth2 a -> smooth2 b -> smooth2 cz -> vy xa = 0 ->
  let h := - vz (k_com c) in
  let k e := small_motion (X e) (Y e) psi cz b a e in
  let q e := state_of u d (k e) t in
  let p := vadd xa (V 0 y 0) in
  agree1 (fun e => vz (vadd (axle_in_road c xa (q e)) (tire_in_axle y 0 (q e)))) (fun e => vz (body_point h (k e) p t)) /\
  agree1 (fun e => vz (vadd (vadd (com_velocity (q e)) (axle_velocity xa (q e))) (tire_velocity y 0 (q e))))
         (fun e => vz (vderive (body_point h (k e) p) t)).
Proof.
  intros c psi a b cz d u X Y t [x1 x2 x3] y Hp Ha Hb Hc Hy h k q p. cbn [vy] in Hy. subst x2.
  assert (E : forall e s, vz (body_point h (k e) p s) = e * cz s - h + (- x1 * sin (e * b s) + y * (cos (e * b s) * sin (e * a s)) + x3 * (cos (e * b s) * cos (e * a s)))).
  { intros e s. unfold body_point. rewrite attitude_eq. unfold mapply, att, mass_centre, p, k, small_motion, vadd, vscale;
      cbn [vx vy vz col1 col2 col3 m_x m_y m_psi m_z m_mu m_phi]. ring. }
  destruct (Ha t) as [Ha1 _], (Hb t) as [Hb1 _], (Hc t) as [Hc1 _].
  split.
  - split.
    + rewrite E. unfold q, state_of, axle_in_road, com_position, axle_position, tire_in_axle, vadd, k, small_motion;
        cbn [vx vy vz q_z q_mu q_phi m_z m_mu m_phi]. fold h. rewrite !Rmult_0_l, sin_0, cos_0. unfold h. ring.
    + eapply is_derive_ext; [intro e; symmetry; rewrite E; unfold q, state_of, axle_in_road, com_position, axle_position, tire_in_axle, vadd, k, small_motion;
        cbn [vx vy vz q_z q_mu q_phi m_z m_mu m_phi]; reflexivity|].
      auto_derive; [repeat split|]. rewrite !Rmult_0_l, sin_0, cos_0. ring.
  - assert (Dv : forall e, vz (vderive (body_point h (k e) p) t) = e * Derive cz t + (- x1 * (cos (e * b t) * (e * Derive b t))
       + y * (- sin (e * b t) * (e * Derive b t) * sin (e * a t) + cos (e * b t) * (cos (e * a t) * (e * Derive a t)))
       + x3 * (- sin (e * b t) * (e * Derive b t) * cos (e * a t) - cos (e * b t) * (sin (e * a t) * (e * Derive a t))))).
    { intro e. unfold vderive; cbn [vz]. rewrite (Derive_ext _ _ t (E e)). apply is_derive_unique.
      auto_derive; [repeat split; assumption|]. contract a; contract b; contract cz. ring. }
    assert (Dc : forall e, Derive (fun r => e * cz r) t = e * Derive cz t) by (intro; apply Derive_scal).
    assert (Da : forall e, Derive (fun r => e * a r) t = e * Derive a t) by (intro; apply Derive_scal).
    assert (Db : forall e, Derive (fun r => e * b r) t = e * Derive b t) by (intro; apply Derive_scal).
    assert (C : forall e, vz (vadd (vadd (com_velocity (q e)) (axle_velocity (V x1 0 x3) (q e))) (tire_velocity y 0 (q e)))
       = e * Derive cz t - e * Derive b t * x1 + e * Derive a t * y).
    { intro e. unfold q, state_of, com_velocity, axle_velocity, tire_velocity, vadd, k, small_motion;
        cbn [vx vy vz q_dz q_dmu q_dphi m_z m_mu m_phi]. rewrite Da, Db, Dc. ring. }
    split.
    + rewrite C, Dv. rewrite !Rmult_0_l, sin_0, cos_0. ring.
    + eapply is_derive_ext; [intro e; symmetry; rewrite C, Dv; reflexivity|].
      auto_derive; [repeat split|]. rewrite !Rmult_0_l, sin_0, cos_0. ring.
Qed.

(** Their horizontal positions are not: an axle below the centre of mass moves forward with
    the pitch, and the kart keeps it where it was. *)
Theorem C111_horizontal_position_refuted : exists c (psi a b cz d u : R -> R) (t : R) xa,
  smooth2 psi /\ smooth2 a /\ smooth2 b /\ smooth2 cz /\ vy xa = 0 /\
  let h := - vz (k_com c) in
  let k e := small_motion (fun _ => 0) (fun _ => 0) psi cz b a e in
  let q e := state_of u d (k e) t in
  ~ agree1 (fun e => vx (axle_in_road c xa (q e))) (fun e => vx (from_road (k e) t (body_point h (k e) xa t))).
Proof.
  exists (MkChassis6 300 20 15 25 5 5 (V 0 0 (- 1 / 4)) (V (645 / 1000) 0 (111 / 1000)) (V (- 4 / 10) 0 (111 / 1000))),
    (fun _ => 0), (fun _ => 0), (fun _ => 1), (fun _ => 0), (fun _ => 0), (fun _ => 0), 0, (V (645 / 1000) 0 (111 / 1000)).
  assert (S0 : forall q : R, smooth2 (fun _ => q)).
  { intro q. apply smooth2_intro with (fun _ => 0) (fun _ => 0); intro; auto_derive; auto; ring. }
  do 4 (split; [apply S0|]). split; [reflexivity|]. intros h k q [_ A]. cbn [k_com vz] in h.
  assert (E : forall e, vx (axle_in_road (MkChassis6 300 20 15 25 5 5 (V 0 0 (- 1 / 4)) (V (645 / 1000) 0 (111 / 1000)) (V (- 4 / 10) 0 (111 / 1000)))
              (V (645 / 1000) 0 (111 / 1000)) (q e)) - vx (from_road (k e) 0 (body_point h (k e) (V (645 / 1000) 0 (111 / 1000)) 0))
     = 645 / 1000 - (645 / 1000 * cos e + 111 / 1000 * sin e)).
  { intro e. unfold from_road, body_point. rewrite attitude_eq.
    unfold axle_in_road, com_position, axle_position, q, state_of, k, small_motion, mapply, mtapply, att, mass_centre, ground_point, rot_z, dot, vadd, vsub, vscale;
      cbn [vx vy vz col1 col2 col3 m_x m_y m_psi m_z m_mu m_phi k_com q_z q_mu].
    rewrite !Rmult_0_r, !Rmult_1_r, sin_0, cos_0. ring. }
  assert (A' : is_derive (fun e => 645 / 1000 - (645 / 1000 * cos e + 111 / 1000 * sin e)) 0 0).
  { eapply is_derive_ext; [|exact A]. intro e. apply E. }
  assert (B : is_derive (fun e => 645 / 1000 - (645 / 1000 * cos e + 111 / 1000 * sin e)) 0 (- (111 / 1000))).
  { auto_derive; [exact I|]. rewrite sin_0, cos_0. lra. }
  apply is_derive_unique in A'. apply is_derive_unique in B. lra.
Qed.

(** The torque of the equations is the moment about the point of the road of the forces of the
    four wheels, applied where the kart puts them, of the air and of the weight. A wheel is the
    orientation of its frame, its deflection and what its tyre gives. *)
Theorem C111_total_torque : forall c q (fl fr rl rr : mat * R * tire_state) Fa yf yr,
  vx (k_com c) = 0 -> vy (k_com c) = 0 ->
  let orient (w : mat * R * tire_state) := fst (fst w) in
  let defl (w : mat * R * tire_state) := snd (fst w) in
  let tyre (w : mat * R * tire_state) := snd w in
  let force w := mapply (orient w) (t_F (tyre w)) in
  let torque w := mapply (orient w) (t_T (tyre w)) in
  let point xa y w := vadd (axle_in_road c xa q) (tire_in_axle y (defl w) q) in
  let axle_F l r := axle_force (orient l) (orient r) (tyre l) (tyre r) in
  let axle_T y l r := axle_torque (orient l) (orient r) (tire_in_axle (- y) (defl l) q) (tire_in_axle y (defl r) q) (tyre l) (tyre r) in
  let weight := V 0 0 (k_mass c * g0) in
  total_torque6 c q (axle_F fl fr) (axle_T yf fl fr) (axle_F rl rr) (axle_T yr rl rr) Fa =
    moment_sum ((point (k_front c) (- yf) fl, force fl) :: (point (k_front c) yf fr, force fr) ::
                (point (k_rear c) (- yr) rl, force rl) :: (point (k_rear c) yr rr, force rr) ::
                (com_position c q, Fa) :: (com_position c q, weight) :: nil)
               (torque fl :: torque fr :: torque rl :: torque rr :: nil) /\
  total_force6 c (axle_F fl fr) (axle_F rl rr) Fa =
    List.fold_right vadd vzero (force fl :: force fr :: force rl :: force rr :: Fa :: weight :: nil).
Proof.
  intros c q [[ofl dfl] tfl] [[ofr dfr] tfr] [[orl drl] trl] [[orr drr] trr] Fa yf yr H1 H2
    orient defl tyre force torque point axle_F axle_T weight.
  unfold orient, defl, tyre, force, torque, point, axle_F, axle_T, weight, axle_force, axle_torque; cbn [fst snd].
  generalize (mapply ofl (t_F tfl)) (mapply ofl (t_T tfl)) (mapply ofr (t_F tfr)) (mapply ofr (t_T tfr))
    (mapply orl (t_F trl)) (mapply orl (t_T trl)) (mapply orr (t_F trr)) (mapply orr (t_T trr)).
  intros Ffl Tfl Ffr Tfr Frl Trl Frr Trr.
  split.
  - unfold total_torque6, moment_sum, com_position; cbn [List.fold_right List.map fst snd].
    generalize (axle_in_road c (k_front c) q) (axle_in_road c (k_rear c) q); intros pf pr.
    unfold vadd, cross, vscale, tire_in_axle, vzero; cbn [vx vy vz]. rewrite H1, H2.
    apply vec_ext; cbn [vx vy vz]; ring.
  - unfold total_force6; cbn [List.fold_right]. unfold vadd, vzero; cbn [vx vy vz]. apply vec_ext; cbn [vx vy vz]; ring.
Qed.

Print Assumptions C110_newton_partial.
Print Assumptions C110_euler_partial.
Print Assumptions C110_lateral_velocity_refuted.
Print Assumptions C110_accelerations_determined.
Print Assumptions C111_wheel_heights_partial.
Print Assumptions C111_horizontal_position_refuted.
Print Assumptions C111_total_torque.
