(** Theorems on the derivatives of a lap, the change to arclength and the Jacobians. *)
From Coq Require Import Reals Lra Lia.
From Coquelicot Require Import Coquelicot.
From Verif Require Import M_Vec M_Road M_Sens S_Sens.
From Coq Require Import List.
Import ListNotations.
Local Open Scope R_scope.

(** What the program holds at the value [p] of the parameter: the solution, and the derivatives
    of the inputs returned by the sensitivity analysis. *)
Definition held (p : R) (q : lap_point) : point :=
  Point (lp_s q) (lp_kappa q) (lp_n q p) (lp_u q p) (lp_v q p) (lp_alpha q p).
Definition dheld (p : R) (q : lap_point) : dpoint :=
  DPoint (Derive (lp_n q) p) (Derive (lp_u q) p) (Derive (lp_v q) p) (Derive (lp_alpha q) p).
Definition both (p : R) (q : lap_point) : point * dpoint := (held p q, dheld p q).

Lemma dtimeds_pace : forall q p, dtimeds (held p q) = pace q p.
Proof. intros. unfold dtimeds, pace, along, held; cbn. f_equal. ring. Qed.

Lemma pace_derive : forall q p, smooth_at p q -> along q p <> 0 ->
  is_derive (pace q) p (d2timedsdp (held p q) (dheld p q)).
Proof.
  intros q p (Hn & Hu & Hv & Ha) H0. unfold pace, along in *.
  destruct q as [s k n u v a]; cbn in *.
  auto_derive; [repeat split; assumption|].
  unfold d2timedsdp; cbn.
  change (fun x : R => n x) with n. change (fun x : R => u x) with u.
  change (fun x : R => v x) with v. change (fun x : R => a x) with a.
  set (c := cos (a p)) in *. set (d := sin (a p)) in *.
  field. exact H0.
Qed.

Lemma times_spec : forall sigma p rest q0 t k, (k < S (length rest))%nat ->
  nth k (t :: times_from sigma dtimeds t (held p q0) (map (held p) rest)) 0
  = t + time_at sigma (q0 :: rest) k p.
Proof.
  intros sigma p rest. induction rest as [|q rest IH]; intros q0 t k Hk.
  - assert (k = O) by (cbn in Hk; lia). subst. cbn. ring.
  - destruct k as [|k]; [cbn; ring|].
    cbn [map times_from]. cbn [nth]. cbn in Hk.
    specialize (IH q (t + (pt_s (held p q) - pt_s (held p q0)) * (sigma * dtimeds (held p q) + (1 - sigma) * dtimeds (held p q0))) k ltac:(lia)).
    etransitivity; [exact IH|]. cbn [time_at]. unfold element. rewrite !dtimeds_pace. cbn [held pt_s]. ring.
Qed.

Lemma last_nth : forall (A : Type) (l : list A) a b, l <> [] -> last l a = nth (length l - 1) l b.
Proof.
  intros A l a b. induction l as [|x l IH]; [congruence|]. intros _.
  destruct l as [|y l]; [reflexivity|].
  change (last (x :: y :: l) a) with (last (y :: l) a).
  rewrite IH by discriminate. cbn [length]. replace (S (S (length l)) - 1)%nat with (S (S (length l) - 1)) by lia. reflexivity.
Qed.
Lemma last_map : forall (A B : Type) (f : A -> B) l a, last (map f l) (f a) = f (last l a).
Proof. intros A B f l a. induction l as [|x l IH]; [reflexivity|]. destruct l; [reflexivity|]. exact IH. Qed.
Lemma times_length : forall sigma rate rest t q0, length (times_from sigma rate t q0 rest) = length rest.
Proof. intros sigma rate rest. induction rest; intros; cbn; [reflexivity|]. now rewrite IHrest. Qed.
Lemma dtimes_length : forall sigma rest t q0, length (dtimes_from sigma t q0 rest) = length rest.
Proof. intros sigma rest. induction rest; intros; cbn; [reflexivity|]. now rewrite IHrest. Qed.

(** *** C112 *)

(** The times and the lap time reported by the program are those of the specification. *)
Theorem C112_times : forall sigma t0 first rest p k, (k <= length rest)%nat ->
  nth k (export_times sigma t0 (held p first) (map (held p) rest)) 0
  = t0 + time_at sigma (first :: rest) k p.
Proof. intros. unfold export_times. apply times_spec. lia. Qed.

Theorem C112_lap_time : forall closed sigma L t0 first rest p,
  laptime closed sigma L t0 (held p first) (map (held p) rest)
  = t0 + lap_time closed sigma L first rest p.
Proof.
  intros. unfold laptime, lap_time.
  rewrite (last_nth _ (export_times sigma t0 (held p first) (map (held p) rest)) t0 0) by discriminate.
  rewrite last_map.
  replace (length (export_times sigma t0 (held p first) (map (held p) rest)) - 1)%nat with (length rest)
    by (cbn; rewrite times_length, map_length; lia).
  rewrite C112_times by lia.
  destruct closed; [|ring].
  unfold element. rewrite !dtimeds_pace. cbn [held pt_s]. ring.
Qed.

Lemma element_derive : forall sigma a sb b p, smooth_at p a -> smooth_at p b -> along a p <> 0 -> along b p <> 0 ->
  is_derive (element sigma a sb b) p
    ((sb - lp_s a) * ((1 - sigma) * d2timedsdp (held p a) (dheld p a) + sigma * d2timedsdp (held p b) (dheld p b))).
Proof.
  intros. unfold element.
  pose proof (pace_derive a p H H1) as Da. pose proof (pace_derive b p H0 H2) as Db.
  set (da := d2timedsdp (held p a) (dheld p a)) in *. set (db := d2timedsdp (held p b) (dheld p b)) in *.
  pose proof (is_derive_scal (fun x => (1 - sigma) * pace a x + sigma * pace b x) p (sb - lp_s a)
    ((1 - sigma) * da + sigma * db)) as D. apply D.
  apply (is_derive_plus (fun x => (1 - sigma) * pace a x) (fun x => sigma * pace b x) p ((1 - sigma) * da) (sigma * db)).
  - apply (is_derive_scal (pace a) p (1 - sigma) da Da).
  - apply (is_derive_scal (pace b) p sigma db Db).
Qed.

Lemma dtimes_spec : forall sigma p rest q0 t k, (k < S (length rest))%nat ->
  (forall q, In q (q0 :: rest) -> smooth_at p q /\ along q p <> 0) ->
  is_derive (time_at sigma (q0 :: rest) k) p
    (nth k (t :: dtimes_from sigma t (both p q0) (map (both p) rest)) 0 - t).
Proof.
  intros sigma p rest. induction rest as [|q rest IH]; intros q0 t k Hk H.
  - assert (k = O) by (cbn in Hk; lia). subst. cbn.
    replace (t - t) with 0 by ring. apply (is_derive_const 0 p).
  - destruct k as [|k].
    { cbn. replace (t - t) with 0 by ring. apply (is_derive_const 0 p). }
    cbn [map dtimes_from]. cbn [nth]. cbn in Hk.
    set (t' := t + (pt_s (fst (both p q)) - pt_s (fst (both p q0))) * (sigma * d2timedsdp (fst (both p q)) (snd (both p q)) + (1 - sigma) * d2timedsdp (fst (both p q0)) (snd (both p q0)))).
    specialize (IH q t' k ltac:(lia) ltac:(intros z Hz; apply H; right; exact Hz)).
    set (N := nth k (t' :: dtimes_from sigma t' (both p q) (map (both p) rest)) 0) in *.
    destruct (H q0 ltac:(left; reflexivity)) as [S0 A0]. destruct (H q ltac:(right; left; reflexivity)) as [S1 A1].
    pose proof (element_derive sigma q0 (lp_s q) q p S0 S1 A0 A1) as E.
    change (is_derive (time_at sigma (q0 :: q :: rest) (S k)) p (N - t)).
    replace (N - t) with ((lp_s q - lp_s q0) * ((1 - sigma) * d2timedsdp (held p q0) (dheld p q0) + sigma * d2timedsdp (held p q) (dheld p q)) + (N - t'))
      by (unfold t'; cbn [both fst snd held pt_s]; ring).
    apply (is_derive_plus (element sigma q0 (lp_s q) q) (time_at sigma (q :: rest) k) p _ _ E IH).
Qed.

(** The derivative reported for the time of every point, and for the lap, is the derivative of
    the reported time with respect to the parameter, when the derivatives of the inputs are
    those of the solution. The time of the first point does not depend on the parameter. *)
Theorem C112_time_derivatives : forall sigma t0 first rest p k, (k <= length rest)%nat ->
  (forall q, In q (first :: rest) -> smooth_at p q /\ along q p <> 0) ->
  is_derive (fun x => nth k (export_times sigma t0 (held x first) (map (held x) rest)) 0) p
    (nth k (export_dtimes sigma 0 (both p first) (map (both p) rest)) 0).
Proof.
  intros sigma t0 first rest p k Hk H.
  apply (is_derive_ext (fun x => t0 + time_at sigma (first :: rest) k x)).
  { intros x. symmetry. apply C112_times. exact Hk. }
  pose proof (dtimes_spec sigma p rest first 0 k ltac:(lia) H) as D.
  unfold export_dtimes.
  set (N := nth k (0 :: dtimes_from sigma 0 (both p first) (map (both p) rest)) 0) in *.
  replace N with (0 + (N - 0)) by ring.
  apply (is_derive_plus (fun _ => t0) (time_at sigma (first :: rest) k) p 0 (N - 0)); [apply (is_derive_const t0 p)|exact D].
Qed.

Theorem C112_lap_time_derivative : forall closed sigma L t0 first rest p,
  (forall q, In q (first :: rest) -> smooth_at p q /\ along q p <> 0) ->
  is_derive (fun x => laptime closed sigma L t0 (held x first) (map (held x) rest)) p
    (dlaptime closed sigma L 0 (both p first) (map (both p) rest)).
Proof.
  intros closed sigma L t0 first rest p H.
  apply (is_derive_ext (fun x => t0 + time_at sigma (first :: rest) (length rest) x
                                + if closed then element sigma (last rest first) L first x else 0)).
  { intros x. change (t0 + time_at sigma (first :: rest) (length rest) x + (if closed then element sigma (last rest first) L first x else 0) = laptime closed sigma L t0 (held x first) (map (held x) rest)). rewrite C112_lap_time. unfold lap_time. ring. }
  pose proof (dtimes_spec sigma p rest first 0 (length rest) ltac:(lia) H) as D.
  unfold dlaptime.
  rewrite (last_nth _ (export_dtimes sigma 0 (both p first) (map (both p) rest)) 0 0) by discriminate.
  replace (length (export_dtimes sigma 0 (both p first) (map (both p) rest)) - 1)%nat with (length rest)
    by (cbn; rewrite dtimes_length, map_length; lia).
  unfold export_dtimes. rewrite last_map.
  set (N := nth (length rest) (0 :: dtimes_from sigma 0 (both p first) (map (both p) rest)) 0) in *.
  assert (DT : is_derive (fun x => t0 + time_at sigma (first :: rest) (length rest) x) p N).
  { replace N with (0 + (N - 0)) by ring.
    apply (is_derive_plus (fun _ => t0) (time_at sigma (first :: rest) (length rest)) p 0 (N - 0)); [apply (is_derive_const t0 p)|exact D]. }
  destruct closed.
  - set (ql := last rest first).
    assert (Hl : In ql (first :: rest)).
    { unfold ql. clear. destruct rest as [|a l]; [left; reflexivity|right].
      revert a. induction l as [|b l IH]; intros a; [left; reflexivity|].
      right. exact (IH b). }
    destruct (H first ltac:(left; reflexivity)) as [S0 A0]. destruct (H ql Hl) as [S1 A1].
    apply (is_derive_plus (fun x => t0 + time_at sigma (first :: rest) (length rest) x) (element sigma ql L first) p N _ DT).
    apply (element_derive sigma ql L first p S1 S0 A1 A0).
  - replace N with (N + 0) by ring.
    apply (is_derive_plus (fun x => t0 + time_at sigma (first :: rest) (length rest) x) (fun _ => 0) p N 0 DT).
    apply (is_derive_const 0 p).
Qed.

(** Two points on a circle of radius 10 driven at speed p: the lap time is 20 pi / p when
    the closing element is included. *)
Definition ex_first : lap_point := LapPoint 0 (1 / 10) (fun _ => 0) (fun p => p) (fun _ => 0) (fun _ => 0).
Definition ex_second : lap_point := LapPoint 30 (1 / 10) (fun _ => 0) (fun p => p) (fun _ => 0) (fun _ => 0).
Example C112_example : (forall q, In q [ex_first; ex_second] -> smooth_at 20 q /\ along q 20 <> 0) /\
  laptime true (1 / 2) 60 0 (held 20 ex_first) (map (held 20) [ex_second]) = 3 /\
  dlaptime true (1 / 2) 60 0 (both 20 ex_first) (map (both 20) [ex_second]) = - (3 / 20).
Proof.
  assert (D1 : Derive (fun p : R => p) 20 = 1) by apply Derive_id.
  assert (D0 : forall c : R, Derive (fun _ : R => c) 20 = 0) by (intros; apply Derive_const).
  split; [|split].
  - intros q [<-|[<-|[]]]; (split; [repeat split; cbn; auto_derive; exact I|]); unfold along; cbn; rewrite cos_0, sin_0; lra.
  - unfold laptime, export_times, dtimeds; cbn. rewrite cos_0, sin_0. field.
  - unfold dlaptime, export_dtimes, d2timedsdp, both, held, dheld; cbn. unfold d2timedsdp; cbn. rewrite D1, !D0, cos_0, sin_0. field.
Qed.

(** *** C113 *)

(** For any motion of the car along the road: [s] the arclength as a function of time, growing at
    the rate given by the velocity of the car, [q] a state as a function of time and [Q] the
    same state as a function of arclength. The value returned for the state is the derivative of
    [Q]. *)
Lemma chain : forall (s q Q : R -> R) (t sdot qdot : R),
  (forall x, Q (s x) = q x) -> ex_derive Q (s t) -> is_derive s t sdot -> is_derive q t qdot -> sdot <> 0 ->
  Derive Q (s t) = qdot / sdot.
Proof.
  intros s q Q t sdot qdot E HQ Hs Hq N.
  apply Derive_correct in HQ.
  pose proof (is_derive_comp Q s t _ sdot HQ Hs) as C.
  set (l := Derive Q (s t)) in *.
  assert (H : qdot = sdot * l).
  { apply is_derive_unique in Hq. rewrite <- Hq.
    transitivity (Derive (fun x => Q (s x)) t).
    - apply Derive_ext. intros x. symmetry. apply E.
    - apply is_derive_unique. exact C. }
  rewrite H. field. exact N.
Qed.

Theorem C113_chassis_states : forall chassis r e de n alpha u v yaw_rate (s q Q : R -> R) t i qdot given,
  let rate := (u * cos alpha - v * sin alpha) / (1 - n * vz (curvature e de)) in
  rate <> 0 ->
  let out := curvilinear_model chassis r e de n alpha u v yaw_rate in
  (forall x, Q (s x) = q x) -> ex_derive Q (s t) -> is_derive s t rate -> is_derive q t qdot ->
  (* what the chassis is told: where the road is and how it turns at that rate *)
  given = RoadInput (vadd r (vscale n (normal e))) e
            (Euler (yaw de * rate) (pitch de * rate) (roll de * rate)) alpha
            (yaw_rate - vz (curvature e de) * rate) (n * vx (curvature e de) * rate) ->
  nth_error (chassis given) i = Some qdot ->
  nth_error (fst out) i = Some (Derive Q (s t)).
Proof.
  intros chassis r e de n alpha u v yaw_rate s q Q t i qdot given rate N out E HQ Hs Hq G Hi.
  assert (H1 : 1 - n * vz (curvature e de) <> 0).
  { intros Z. apply N. unfold rate. rewrite Z. unfold Rdiv. rewrite Rinv_0. ring. }
  assert (H2 : u * cos alpha - v * sin alpha <> 0).
  { intros Z. apply N. unfold rate. rewrite Z. unfold Rdiv. ring. }
  assert (G' : given = RoadInput (ro_position (road_update r e de n alpha u v yaw_rate)) e
     (euler_dot de (ro_dtime_ds (road_update r e de n alpha u v yaw_rate))) alpha
     (ro_alpha_dot (road_update r e de n alpha u v yaw_rate)) (ro_w (road_update r e de n alpha u v yaw_rate))).
  { subst given. unfold road_update, euler_dot; cbn [ro_position ro_dtime_ds ro_alpha_dot ro_w].
    f_equal; [f_equal| |]; unfold rate; field; split; assumption. }
  unfold out, curvilinear_model. cbn [fst]. rewrite <- G'. rewrite nth_error_map, Hi. cbn [option_map]. f_equal.
  rewrite (chain s q Q t rate qdot E HQ Hs Hq N).
  unfold road_update; cbn [ro_dtime_ds]. unfold rate. field. split; assumption.
Qed.

(** The rows of the road: time, lateral displacement and heading angle. *)
Theorem C113_road_states : forall chassis r e de n alpha u v yaw_rate (s T N A : R -> R) t,
  let rate := (u * cos alpha - v * sin alpha) / (1 - n * vz (curvature e de)) in
  rate <> 0 ->
  let '(_, (dtime, dn, dalpha)) := curvilinear_model chassis r e de n alpha u v yaw_rate in
  is_derive s t rate ->
  (* the clock *)
  ((forall x, T (s x) = x) -> ex_derive T (s t) -> dtime = Derive T (s t)) /\
  (* the velocity of the car across the road *)
  (forall y : R -> R, (forall x, N (s x) = y x) -> ex_derive N (s t) ->
     is_derive y t (u * sin alpha + v * cos alpha) -> dn = Derive N (s t)) /\
  (* heading of the car minus heading of the road *)
  (forall y : R -> R, (forall x, A (s x) = y x) -> ex_derive A (s t) ->
     is_derive y t (yaw_rate - vz (curvature e de) * rate) -> dalpha = Derive A (s t)).
Proof.
  intros chassis r e de n alpha u v yaw_rate s T N A t rate Nz.
  assert (H1 : 1 - n * vz (curvature e de) <> 0).
  { intros Z. apply Nz. unfold rate. rewrite Z. unfold Rdiv. rewrite Rinv_0. ring. }
  assert (H2 : u * cos alpha - v * sin alpha <> 0).
  { intros Z. apply Nz. unfold rate. rewrite Z. unfold Rdiv. ring. }
  unfold curvilinear_model, road_update; cbn [ro_dtime_ds ro_n_dot ro_alpha_dot]. intros Hs.
  split; [|split].
  - intros E HT. rewrite (chain s (fun x => x) T t rate 1 E HT Hs (is_derive_id t) Nz).
    unfold rate. field. split; assumption.
  - intros y E HN Hy. rewrite (chain s y N t rate _ E HN Hs Hy Nz). unfold rate. field. split; assumption.
  - intros y E HA Hy. rewrite (chain s y A t rate _ E HA Hs Hy Nz). unfold rate. field. split; assumption.
Qed.

(** On the plane without a track the values returned are the time derivatives. *)
Theorem C113_cartesian : forall chassis x y psi u v yaw_rate,
  cartesian_model chassis x y psi u v yaw_rate
  = (chassis (RoadInput (V x y 0) (Euler 0 0 0) (Euler 0 0 0) psi yaw_rate 0),
     (u * cos psi - v * sin psi, u * sin psi + v * cos psi, yaw_rate)).
Proof.
  intros. unfold cartesian_model, cartesian_update.
  f_equal; [|rewrite !Rmult_1_r; reflexivity].
  rewrite <- (map_id (chassis _)) at 2. apply map_ext. intros a. ring.
Qed.

(** Driving at 10 m/s, one metre to the side of a circle of radius 4: s grows at 10/0.75. *)
Example C113_example : let e := Euler 0 0 0 in let de := Euler (1/4) 0 0 in
  (10 * cos 0 - 0 * sin 0) / (1 - 1 * vz (curvature e de)) = 40 / 3 /\
  nth_error (fst (curvilinear_model (fun g => [in_heading_dot g]) (V 0 0 0) e de 1 0 10 0 0)) 0 = Some (- (1 / 4)).
Proof.
  cbn. unfold curvature; cbn. rewrite !cos_0, !sin_0. split; [field|]. f_equal. field.
Qed.

(** *** C114 *)
Section Equations.
Context (values jacobian : (list R -> list R) -> list R -> list R)
        (hessian : (list R -> list R) -> list R -> nat -> list R).
(** CppAD: values, and derivatives stored row by row. *)
Definition cppad : Prop :=
  (forall f x, values f x = f x) /\
  (forall f x m i j, (forall z, length (f z) = m) -> (i < m)%nat -> (j < length x)%nat ->
     nth (j + length x * i) (jacobian f x) 0 = partial_derivative (fun z => nth i (f z) 0) x j) /\
  (forall f x m var i j, (forall z, length (f z) = m) -> (var < m)%nat ->
     (i < length x)%nat -> (j < length x)%nat ->
     nth (j + length x * i) (hessian f x var) 0
     = partial_derivative (fun z => partial_derivative (fun w => nth var (f w) 0) z j) x i).

(** [out] are the values and the derivatives of the vehicle [op] at arclength [time]. *)
Definition describes (op : R -> list R -> list R * list R) (n : nat) (x : list R) (time : R) (out : equations_out) : Prop :=
  eq_states out = fst (op time x) /\ eq_dstates out = snd (op time x) /\
  (forall i j, (i < n)%nat -> (j < length x)%nat ->
     eq_jac_states out i j = partial_derivative (fun z => nth i (fst (op time z)) 0) x j /\
     eq_jac_dstates out i j = partial_derivative (fun z => nth i (snd (op time z)) 0) x j) /\
  (forall var i j, (var < n)%nat -> (i < length x)%nat -> (j < length x)%nat ->
     eq_hess_states out var i j
       = partial_derivative (fun z => partial_derivative (fun w => nth var (fst (op time w)) 0) z j) x i /\
     eq_hess_dstates out var i j
       = partial_derivative (fun z => partial_derivative (fun w => nth var (snd (op time w)) 0) z j) x i).

Lemma partial_ext : forall f g x j, (forall z, f z = g z) -> partial_derivative f x j = partial_derivative g x j.
Proof. intros f g x j E. unfold partial_derivative. apply Derive_ext. intros a. apply E. Qed.

(** Vehicles that do not depend on the position along the track, or the start of the track. *)
Theorem C114_equations_partial : forall op n inputs controls time,
  cppad ->
  (forall a x, length (fst (op a x)) = n /\ length (snd (op a x)) = n) ->
  (time = 0 \/ forall a b x, op a x = op b x) ->
  describes op n (inputs ++ controls) time
    (equations values jacobian hessian op n (length (inputs ++ controls)) inputs controls time).
Proof.
  intros op n inputs controls time (Hv & Hj & Hh) Hl H0.
  assert (E : forall x, op time x = op 0 x).
  { intros x. destruct H0 as [->|H0]; [reflexivity|apply H0]. }
  set (x := inputs ++ controls).
  set (f := fun x => let '(st, dst) := op 0 x in st ++ dst).
  assert (F : forall z, f z = fst (op 0 z) ++ snd (op 0 z)) by (intros z; unfold f; destruct (op 0 z); reflexivity).
  assert (FL : forall z, length (f z) = (n + n)%nat).
  { intros z. rewrite F, app_length, (proj1 (Hl 0 z)), (proj2 (Hl 0 z)). reflexivity. }
  assert (F1 : forall z i, (i < n)%nat -> nth i (f z) 0 = nth i (fst (op time z)) 0).
  { intros z i Hi. rewrite F, E. apply app_nth1. rewrite (proj1 (Hl 0 z)). exact Hi. }
  assert (F2 : forall z i, nth (i + n) (f z) 0 = nth i (snd (op time z)) 0).
  { intros z i. rewrite F, E. rewrite app_nth2; rewrite (proj1 (Hl 0 z)); [f_equal|]; lia. }
  unfold describes, equations. fold x. cbv zeta. cbn [eq_states eq_dstates eq_jac_states eq_jac_dstates eq_hess_states eq_hess_dstates].
  change (fun x0 => let '(st, dst) := op 0 x0 in st ++ dst) with f.
  rewrite !Hv, F, !E. pose proof (Hl 0 x) as [L1 L2].
  split; [|split; [|split]].
  - rewrite <- L1 at 1. rewrite firstn_app, Nat.sub_diag, firstn_all. apply app_nil_r.
  - rewrite <- L1 at 2. rewrite skipn_app, Nat.sub_diag, skipn_all. cbn [app skipn]. rewrite <- L2 at 1. apply firstn_all.
  - intros i j Hi Hj'. rewrite !(Hj f x (n + n)%nat) by (assumption || lia). split; apply partial_ext; intros z; [apply F1; exact Hi|apply F2].
  - intros var i j Hvar Hi Hj'. rewrite !(Hh f x (n + n)%nat) by (assumption || lia).
    split; apply partial_ext; intros z; apply partial_ext; intros w; [apply F1; exact Hvar|apply F2].
Qed.
End Equations.

(** At any other position the returned derivatives are those of the start of the track. A car on
    a road whose curvature grows with the arclength, inputs lateral displacement and speed; the
    derivative of the second state is the time per unit of arclength. *)
Definition clothoid (s : R) (x : list R) : list R * list R :=
  (x, [0; dtimeds (Point s (s / 100) (nth 0 x 0) (nth 1 x 0) 0 0)]).
Theorem C114_position_ignored_refuted : forall values jacobian hessian,
  cppad values jacobian hessian ->
  ~ describes clothoid 2 [2; 10] 25 (equations values jacobian hessian clothoid 2 2 [2; 10] [] 25) /\
  nth 1 (eq_dstates (equations values jacobian hessian clothoid 2 2 [2; 10] [] 25)) 0 = 1 / 10 /\
  nth 1 (snd (clothoid 25 [2; 10])) 0 = 1 / 20.
Proof.
  intros values jacobian hessian (Hv & _).
  assert (A : nth 1 (eq_dstates (equations values jacobian hessian clothoid 2 2 [2; 10] [] 25)) 0 = 1 / 10).
  { unfold equations. rewrite Hv. cbn. unfold dtimeds; cbn. rewrite cos_0, sin_0. field. }
  assert (B : nth 1 (snd (clothoid 25 [2; 10])) 0 = 1 / 20).
  { cbn. unfold dtimeds; cbn. rewrite cos_0, sin_0. field. }
  split; [|split; assumption].
  intros (_ & D & _). rewrite D in A. rewrite A in B. lra.
Qed.

(** The hypotheses on CppAD can be met, and the start of the track is described. *)
Lemma nth_blocks : forall (g : nat -> nat -> R) w m a i j, (i < m)%nat -> (j < w)%nat ->
  nth (j + w * i) (flat_map (fun i => map (g i) (seq 0 w)) (seq a m)) 0 = g (a + i)%nat j.
Proof.
  intros g w m. induction m as [|m IH]; intros a i j Hi Hj; [lia|].
  cbn [seq flat_map].
  assert (Lw : length (map (g a) (seq 0 w)) = w) by (rewrite map_length, seq_length; reflexivity).
  destruct i as [|i].
  - rewrite app_nth1 by (rewrite Lw; lia).
    replace (j + w * 0)%nat with j by lia.
    rewrite (nth_indep _ 0 (g a 0%nat)) by (rewrite Lw; lia).
    rewrite map_nth, seq_nth by lia. f_equal; lia.
  - rewrite app_nth2 by (rewrite Lw; lia). rewrite Lw.
    replace (j + w * S i - w)%nat with (j + w * i)%nat by lia.
    rewrite IH by lia. f_equal; lia.
Qed.
Definition ex_jacobian (f : list R -> list R) (x : list R) : list R :=
  flat_map (fun i => map (fun j => partial_derivative (fun z => nth i (f z) 0) x j) (seq 0 (length x))) (seq 0 (length (f x))).
Definition ex_hessian (f : list R -> list R) (x : list R) (var : nat) : list R :=
  flat_map (fun i => map (fun j => partial_derivative (fun z => partial_derivative (fun w => nth var (f w) 0) z j) x i)
                         (seq 0 (length x))) (seq 0 (length x)).
Lemma cppad_exists : cppad (fun f x => f x) ex_jacobian ex_hessian.
Proof.
  split; [reflexivity|]. split.
  - intros f x m i j Hm Hi Hj. unfold ex_jacobian.
    rewrite (nth_blocks (fun i j => partial_derivative (fun z => nth i (f z) 0) x j)); [reflexivity| |exact Hj].
    rewrite Hm. exact Hi.
  - intros f x m var i j Hm Hvar Hi Hj. unfold ex_hessian.
    exact (nth_blocks (fun i j => partial_derivative (fun z => partial_derivative (fun w => nth var (f w) 0) z j) x i)
             (length x) (length x) 0 i j Hi Hj).
Qed.
Definition ex_vehicle (s : R) (x : list R) : list R * list R := (firstn 1 (x ++ [0]), [nth 0 x 0 * nth 1 x 0]).
Example C114_example : exists out,
  out = equations (fun f x => f x) ex_jacobian ex_hessian ex_vehicle 1 2 [3] [5] 7 /\
  describes ex_vehicle 1 [3; 5] 7 out /\ eq_jac_dstates out 0 1 = 3.
Proof.
  eexists. split; [reflexivity|].
  assert (D : describes ex_vehicle 1 [3; 5] 7 (equations (fun f x => f x) ex_jacobian ex_hessian ex_vehicle 1 2 [3] [5] 7)).
  { apply (C114_equations_partial (fun f x => f x) ex_jacobian ex_hessian ex_vehicle 1 [3] [5] 7 cppad_exists).
    - intros a x. split; [|reflexivity]. destruct x; reflexivity.
    - right. reflexivity. }
  split; [exact D|].
  destruct D as (_ & _ & J & _).
  rewrite (proj2 (J 0%nat 1%nat ltac:(lia) ltac:(cbn; lia))).
  unfold partial_derivative; cbn. apply is_derive_unique. auto_derive; [exact I|ring].
Qed.

Print Assumptions C112_times.
Print Assumptions C112_lap_time.
Print Assumptions C112_time_derivatives.
Print Assumptions C112_lap_time_derivative.
Print Assumptions C113_chassis_states.
Print Assumptions C113_road_states.
Print Assumptions C113_cartesian.
Print Assumptions C114_equations_partial.
Print Assumptions C114_position_ignored_refuted.
