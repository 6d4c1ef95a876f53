(** The initial estimate of the circuit preprocessor is a road laid on the measured points. *)
From Coq Require Import Reals List Lra Lia Arith ZArith.
From Verif Require Import M_Vec M_Road M_Preproc M_Estimate S_Road S_Preproc S_Estimate L_Road L_Car P_Preproc.
Import ListNotations.
Local Open Scope R_scope.

(** *** Vectors *)
Lemma unit_scale a : 0 < norm a -> a = vscale (norm a) (unit_vector a).
Proof. intros H. unfold unit_vector, vscale. destruct a; cbn. f_equal; field; cbn; lra. Qed.
Lemma norm_pos a : 0 < dot a a <-> 0 < norm a.
Proof.
  unfold norm. split; [apply sqrt_lt_R0|]. intros H. destruct (Rle_or_lt (dot a a) 0) as [K|K]; [|exact K].
  rewrite sqrt_neg_0 in H by exact K. lra.
Qed.
Lemma dot_nonneg a : 0 <= dot a a.
Proof. unfold dot. pose proof (Rle_0_sqr (vx a)). pose proof (Rle_0_sqr (vy a)). pose proof (Rle_0_sqr (vz a)). unfold Rsqr in *. lra. Qed.
Lemma norm_sqr a : norm a * norm a = dot a a.
Proof. apply sqrt_sqrt, dot_nonneg. Qed.
Lemma dot_zero a : dot a a = 0 -> a = vzero.
Proof.
  destruct a as [x y z]. unfold dot, vzero. cbn. intros H.
  assert (x = 0 /\ y = 0 /\ z = 0) as (-> & -> & ->); [|reflexivity].
  pose proof (Rle_0_sqr x). pose proof (Rle_0_sqr y). pose proof (Rle_0_sqr z). unfold Rsqr in *.
  repeat split; apply Rsqr_0_uniq; unfold Rsqr; lra.
Qed.
Lemma nonzero_norm a : a <> vzero -> 0 < norm a.
Proof. intros H. apply norm_pos. destruct (dot_nonneg a) as [K|K]; [exact K|]. exfalso. apply H, dot_zero. auto. Qed.
Lemma dot_scale_l k a b : dot (vscale k a) b = k * dot a b.
Proof. unfold dot, vscale. cbn. ring. Qed.
Lemma dot_comm a b : dot a b = dot b a.
Proof. unfold dot. ring. Qed.
Lemma unit_dot a : 0 < norm a -> dot (unit_vector a) (unit_vector a) = 1.
Proof.
  intros H. unfold unit_vector. rewrite dot_scale_l, dot_comm, dot_scale_l, <- norm_sqr. field. lra.
Qed.
Lemma unit_of_unit a : dot a a = 1 -> unit_vector a = a.
Proof. intros H. unfold unit_vector, norm. rewrite H, sqrt_1. destruct a; unfold vscale; cbn. f_equal; field. Qed.
Lemma difference_nonzero a b : a <> b -> vsub b a <> vzero.
Proof.
  intros H E. apply H. destruct a, b. unfold vsub, vzero in E. cbn in E. injection E as E1 E2 E3. f_equal; lra.
Qed.

(** The frame built from a unit vector and a vector that is not along it. *)
Lemma frame_of_rotation t right : dot t t = 1 -> cross t right <> vzero -> rotation (frame_of t right).
Proof.
  intros Ht Hc. apply nonzero_norm in Hc. unfold rotation, frame_of. cbn [col1 col2 col3].
  set (b := binormal_of t right).
  assert (Hb : dot b b = 1) by (apply unit_dot; exact Hc).
  assert (Htb : dot t b = 0).
  { unfold b, binormal_of, unit_vector. rewrite dot_comm, dot_scale_l.
    replace (dot (cross t right) t) with 0 by (unfold dot, cross; cbn; ring). ring. }
  assert (Hn : dot (cross b t) (cross b t) = 1).
  { transitivity (dot b b * dot t t - dot t b * dot t b); [unfold dot, cross; cbn; ring|]. rewrite Hb, Ht, Htb. ring. }
  unfold normal_of. rewrite unit_of_unit by exact Hn. clearbody b.
  repeat split; try assumption; try (unfold dot, cross; cbn; ring).
  apply vec_eq; unfold cross; cbn.
  - transitivity (dot t t * vx b - dot t b * vx t); [unfold dot; ring|]. rewrite Ht, Htb. ring.
  - transitivity (dot t t * vy b - dot t b * vy t); [unfold dot; ring|]. rewrite Ht, Htb. ring.
  - transitivity (dot t t * vz b - dot t b * vz t); [unfold dot; ring|]. rewrite Ht, Htb. ring.
Qed.
Lemma frame_of_right t right : dot t t = 1 -> cross t right <> vzero ->
  dot right (col3 (frame_of t right)) = 0 /\ 0 < dot right (col2 (frame_of t right)).
Proof.
  intros Ht Hc. pose proof (frame_of_rotation t right Ht Hc) as (_ & _ & _ & _ & _ & _ & Hx).
  apply nonzero_norm in Hc. cbn [frame_of col1 col2 col3] in *. set (b := binormal_of t right) in *. split.
  - unfold b, binormal_of, unit_vector. rewrite dot_comm, dot_scale_l.
    replace (dot (cross t right) right) with 0 by (unfold dot, cross; cbn; ring). ring.
  - assert (Hb : dot b b = 1) by (apply unit_dot; exact Hc).
    assert (Htb : dot t b = 0).
    { unfold b, binormal_of, unit_vector. rewrite dot_comm, dot_scale_l.
      replace (dot (cross t right) t) with 0 by (unfold dot, cross; cbn; ring). ring. }
    assert (Hn : dot (cross b t) (cross b t) = 1).
    { transitivity (dot b b * dot t t - dot t b * dot t b); [unfold dot, cross; cbn; ring|]. rewrite Hb, Ht, Htb. ring. }
    unfold normal_of. rewrite unit_of_unit by exact Hn.
    replace (dot right (cross b t)) with (dot b (cross t right)) by (unfold dot, cross; cbn; ring).
    rewrite (unit_scale (cross t right)) by exact Hc. fold (binormal_of t right). fold b.
    rewrite dot_comm, dot_scale_l, Hb. lra.
Qed.

(** *** Tangents *)
Lemma segment_length r : length (segment_directions r) = (length r - 1)%nat.
Proof.
  induction r as [|a [|b r] IH]; [reflexivity|reflexivity|].
  change (segment_directions (a :: b :: r)) with (unit_vector (vsub b a) :: segment_directions (b :: r)).
  cbn [length]. rewrite IH. cbn [length]. lia.
Qed.
Lemma segment_nth r i : (S i < length r)%nat ->
  nth i (segment_directions r) vzero = unit_vector (vsub (nth (S i) r vzero) (nth i r vzero)).
Proof.
  revert i. induction r as [|a [|b r] IH]; intros i H; cbn [length] in H; [lia|lia|].
  change (segment_directions (a :: b :: r)) with (unit_vector (vsub b a) :: segment_directions (b :: r)).
  destruct i as [|i]; [reflexivity|]. change (nth i (segment_directions (b :: r)) vzero = unit_vector (vsub (nth (S i) (b :: r) vzero) (nth i (b :: r) vzero))).
  apply IH. cbn [length]. lia.
Qed.
Lemma last_nth {A} (l : list A) d : last l d = nth (length l - 1) l d.
Proof.
  induction l as [|a [|b l] IH]; [reflexivity|reflexivity|]. change (last (a :: b :: l) d) with (last (b :: l) d). rewrite IH.
  cbn [length]. replace (S (S (length l)) - 1)%nat with (S (length l)) by lia. cbn [nth].
  replace (S (length l) - 1)%nat with (length l) by lia. reflexivity.
Qed.
Lemma hd_nth {A} (l : list A) d : hd d l = nth 0 l d.
Proof. destruct l; reflexivity. Qed.
Lemma tangents_length closed r : (2 <= length r)%nat -> length (tangents closed r) = length r.
Proof. intros H. unfold tangents. rewrite app_length, segment_length. cbn. lia. Qed.

(** Consecutive points differ; on a closed track so do the last and the first. *)
Definition apart (closed : bool) (r : list vec) : Prop :=
  (forall i, (S i < length r)%nat -> nth i r vzero <> nth (S i) r vzero) /\
  (closed = true -> nth (length r - 1) r vzero <> nth 0 r vzero).

Lemma direction_of a b : a <> b -> dot (unit_vector (vsub b a)) (unit_vector (vsub b a)) = 1 /\ points_to (unit_vector (vsub b a)) a b.
Proof.
  intros H. pose proof (nonzero_norm _ (difference_nonzero _ _ H)) as K. split; [apply unit_dot; exact K|].
  exists (norm (vsub b a)). split; [exact K|]. apply unit_scale; exact K.
Qed.
Lemma tangent_along closed r i : (2 <= length r)%nat -> apart closed r -> (i < length r)%nat ->
  dot (nth i (tangents closed r) vzero) (nth i (tangents closed r) vzero) = 1 /\ along closed r i (nth i (tangents closed r) vzero).
Proof.
  intros Hn (Ha & Hc) Hi. unfold tangents, along. destruct (Nat.eqb_spec i (length r - 1)) as [E|E].
  - rewrite app_nth2 by (rewrite segment_length; lia). rewrite segment_length, E, Nat.sub_diag. cbn [nth]. destruct closed.
    + rewrite last_nth, hd_nth. apply direction_of. auto.
    + rewrite last_nth, segment_length, segment_nth by lia. replace (S (length r - 1 - 1)) with (length r - 1)%nat by lia. apply direction_of.
      replace (length r - 1)%nat with (S (length r - 1 - 1)) at 2 by lia. apply Ha. lia.
  - rewrite app_nth1 by (rewrite segment_length; lia). rewrite segment_nth by lia. apply direction_of. apply Ha. lia.
Qed.

(** *** Slopes *)
Definition growing (s : list R) : Prop := forall i, (S i < length s)%nat -> nth i s 0 < nth (S i) s 0.

Lemma differences_length s v : length s = length v -> length (differences s v) = (length v - 1)%nat.
Proof.
  revert v. induction s as [|a [|b s] IH]; intros [|c [|d v]] H; cbn in H; try discriminate; try reflexivity.
  change (differences (a :: b :: s) (c :: d :: v)) with ((d - c) / (b - a) :: differences (b :: s) (d :: v)).
  cbn [length]. rewrite IH by (cbn; lia). cbn [length]. lia.
Qed.
Lemma differences_nth s v i : length s = length v -> (S i < length v)%nat ->
  nth i (differences s v) 0 = (nth (S i) v 0 - nth i v 0) / (nth (S i) s 0 - nth i s 0).
Proof.
  revert v i. induction s as [|a [|b s] IH]; intros [|c [|d v]] i H Hi; cbn in H, Hi; try discriminate; try lia.
  change (differences (a :: b :: s) (c :: d :: v)) with ((d - c) / (b - a) :: differences (b :: s) (d :: v)).
  destruct i as [|i]; [reflexivity|].
  change (nth i (differences (b :: s) (d :: v)) 0 = (nth (S i) (d :: v) 0 - nth i (d :: v) 0) / (nth (S i) (b :: s) 0 - nth i (b :: s) 0)).
  apply IH; cbn; lia.
Qed.
Lemma telescope (v : list R) (f : nat -> R) n : (forall i, (S i < length v)%nat -> nth (S i) v 0 = nth i v 0 + f i) ->
  (n < length v)%nat -> total f n = nth n v 0 - nth 0 v 0.
Proof.
  intros H. induction n as [|n IH]; intros Hn; cbn [total]; [lra|]. rewrite IH by lia. rewrite (H n) by lia. lra.
Qed.
Lemma rates_slopes closed turn gap s v : (2 <= length v)%nat -> length s = length v -> growing s -> (closed = true -> gap <> 0) ->
  slopes closed turn gap s v (rates closed turn gap s v).
Proof.
  intros Hn Hl Hs Hg. unfold slopes, rates. rewrite last_nth, hd_nth, (last_nth (differences s v)).
  set (x := if closed then _ else _). pose proof (differences_length s v Hl) as Dl.
  assert (D1 : forall i, (S i < length v)%nat -> nth i (differences s v ++ [x]) 0 = (nth (S i) v 0 - nth i v 0) / (nth (S i) s 0 - nth i s 0)).
  { intros i Hi. rewrite app_nth1 by lia. apply differences_nth; assumption. }
  assert (D2 : nth (length v - 1) (differences s v ++ [x]) 0 = x).
  { rewrite app_nth2 by lia. rewrite Dl, Nat.sub_diag. reflexivity. }
  assert (St : forall i, (S i < length v)%nat -> nth (S i) v 0 = nth i v 0 + element_length s gap i * nth i (differences s v ++ [x]) 0).
  { intros i Hi. rewrite D1 by exact Hi. unfold element_length. replace (i =? length s - 1)%nat with false by (symmetry; apply Nat.eqb_neq; lia).
    assert (nth i s 0 < nth (S i) s 0) by (apply Hs; lia). field. lra. }
  split; [rewrite app_length, Dl; cbn; lia|]. split; [exact St|]. split.
  - intros ->. specialize (Hg eq_refl). rewrite D2.
    assert (X : nth (length v - 1) v 0 + gap * x = nth 0 v 0 + turn) by (unfold x; field; exact Hg).
    split; [exact X|]. replace (length v) with (S (length v - 1)) at 1 by lia. cbn [total].
    rewrite (telescope v) by (try exact St; lia). rewrite D2. unfold element_length at 1.
    replace (length v - 1 =? length s - 1)%nat with true by (symmetry; apply Nat.eqb_eq; lia). lra.
  - intros ->. rewrite D2. unfold x. rewrite Dl. rewrite app_nth1 by lia. f_equal. lia.
Qed.
Lemma rates_length closed turn gap s v : (1 <= length v)%nat -> length s = length v -> length (rates closed turn gap s v) = length v.
Proof. intros H E. unfold rates. rewrite app_length, differences_length by exact E. cbn. lia. Qed.

(** *** Angles *)
Lemma same_angle_trig a b : same_angle a b -> cos a = cos b /\ sin a = sin b.
Proof.
  intros [k ->]. replace (b + 2 * PI * IZR k) with (b + 2 * IZR k * PI) by ring.
  destruct k as [|p|p].
  - replace (b + 2 * IZR 0 * PI) with b by lra. auto.
  - rewrite <- (positive_nat_Z p), <- INR_IZR_INZ. split; [apply cos_period|apply sin_period].
  - assert (N : IZR (Z.neg p) = - IZR (Z.pos p)) by (rewrite <- opp_IZR; reflexivity). rewrite N.
    set (c := b + 2 * - IZR (Z.pos p) * PI). assert (B : b = c + 2 * INR (Pos.to_nat p) * PI).
    { unfold c. rewrite INR_IZR_INZ, positive_nat_Z. ring. }
    rewrite B. rewrite cos_period, sin_period. auto.
Qed.
Lemma frame_same e a : same_angle a (yaw e) ->
  tangent (Euler a (pitch e) (roll e)) = tangent e /\ normal (Euler a (pitch e) (roll e)) = normal e /\ binormal (Euler a (pitch e) (roll e)) = binormal e.
Proof.
  intros H. apply same_angle_trig in H as [C S]. unfold tangent, normal, binormal. cbn [yaw pitch roll]. rewrite C, S. auto.
Qed.

(** What is asked from lion: the angles of a rotation give the rotation back, the wrapped angle is
    the same angle between minus and plus half a turn. *)
Definition angles_of_rotation (rotmat2ea : mat -> euler) : Prop :=
  forall m, rotation m -> tangent (rotmat2ea m) = col1 m /\ normal (rotmat2ea m) = col2 m /\ binormal (rotmat2ea m) = col3 m.
Definition wraps (wrap_to_pi : R -> R) : Prop :=
  (forall a, - PI <= wrap_to_pi a <= PI) /\ (forall a, same_angle (wrap_to_pi a) a).

Lemma nth_error_of {A} (l : list A) i d : (i < length l)%nat -> nth_error l i = Some (nth i l d).
Proof. intros H. apply nth_error_nth'. exact H. Qed.

(** The estimated road is laid on the measured points, with a heading that never jumps by
    more than half a turn. *)
Theorem C125_laid_on_the_points : forall rotmat2ea wrap_to_pi closed s r right,
  angles_of_rotation rotmat2ea -> wraps wrap_to_pi ->
  (2 <= length r)%nat -> length right = length r -> apart closed r ->
  (forall i t, (i < length r)%nat -> along closed r i t -> cross t (nth i right vzero) <> vzero) ->
  let est := estimate_elevation rotmat2ea wrap_to_pi closed s r right in
  length (e_yaw est) = length r /\ length (e_pitch est) = length r /\ length (e_roll est) = length r /\
  (forall i, (i < length r)%nat ->
     laid_on closed r right i (Euler (nth i (e_yaw est) 0) (nth i (e_pitch est) 0) (nth i (e_roll est) 0))) /\
  (forall i, (S i < length r)%nat -> Rabs (nth (S i) (e_yaw est) 0 - nth i (e_yaw est) 0) <= PI).
Proof.
  intros ea wr closed s r right Hea [Hw1 Hw2] Hn Hl Ha Hx est.
  set (es := raw_angles ea closed r right).
  assert (Le : length es = length r).
  { unfold es, raw_angles. rewrite map_length, combine_length, tangents_length by exact Hn. lia. }
  destruct (C102_yaw_continuous wr (map yaw es) Hw1 Hw2) as (L & J & S & _). rewrite map_length in L.
  change (e_yaw est) with (unwrap wr (map yaw es)). change (e_pitch est) with (map pitch es). change (e_roll est) with (map roll es).
  rewrite L, !map_length. split; [exact Le|]. split; [exact Le|]. split; [exact Le|]. split.
  - intros i Hi. set (e0 := Euler 0 0 0). set (e := nth i es e0).
    assert (P : nth i (map pitch es) 0 = pitch e) by (change 0 with (pitch e0); apply map_nth).
    assert (Q : nth i (map roll es) 0 = roll e) by (change 0 with (roll e0); apply map_nth).
    rewrite P, Q.
    assert (Y : same_angle (nth i (unwrap wr (map yaw es)) 0) (yaw e)).
    { apply (S i); [apply nth_error_of; lia|]. rewrite nth_error_map. unfold e. rewrite (nth_error_of es i e0) by lia. reflexivity. }
    destruct (frame_same e _ Y) as (F1 & F2 & F3). unfold laid_on. rewrite F1, F2, F3.
    destruct (tangent_along closed r i Hn Ha Hi) as [T1 T2].
    assert (E : e = ea (frame_of (nth i (tangents closed r) vzero) (nth i right vzero))).
    { unfold e, es, raw_angles. rewrite (nth_indep _ e0 (ea (frame_of vzero vzero))) by (fold (raw_angles ea closed r right); fold es; lia).
      change (ea (frame_of vzero vzero)) with ((fun p => ea (frame_of (fst p) (snd p))) (vzero, vzero)). rewrite map_nth.
      rewrite combine_nth by (rewrite tangents_length by exact Hn; lia). reflexivity. }
    pose proof (Hx i _ Hi T2) as Hc.
    destruct (Hea _ (frame_of_rotation _ _ T1 Hc)) as (G1 & G2 & G3). rewrite <- E in G1, G2, G3. rewrite G1, G2, G3.
    split; [exact T2|]. apply frame_of_right; assumption.
  - intros i Hi. apply (J i); apply nth_error_of; lia.
Qed.

(** Its derivatives are the slopes between the points: heading, pitch, roll and widths, and
    the slopes of the slopes; a closed track makes one turn. *)
Theorem C125_slopes_with_elevation : forall rotmat2ea wrap_to_pi closed s r right,
  (2 <= length r)%nat -> length right = length r -> length s = length r -> growing s -> apart closed r ->
  let est := estimate_elevation rotmat2ea wrap_to_pi closed s r right in
  let gap := norm (vsub (nth 0 r vzero) (nth (length r - 1) r vzero)) in
  (e_direction est = 1 \/ e_direction est = -1) /\
  slopes closed (2 * PI * e_direction est) gap s (e_yaw est) (e_yaw_dot est) /\
  slopes closed 0 gap s (e_pitch est) (e_pitch_dot est) /\ slopes closed 0 gap s (e_roll est) (e_roll_dot est) /\
  slopes closed 0 gap s (e_yaw_dot est) (e_dyaw_dot est) /\ slopes closed 0 gap s (e_pitch_dot est) (e_dpitch_dot est) /\
  slopes closed 0 gap s (e_roll_dot est) (e_droll_dot est) /\
  slopes closed 0 gap s (e_nl est) (e_dnl est) /\ slopes closed 0 gap s (e_nr est) (e_dnr est).
Proof.
  intros ea wr closed s r right Hn Hl Hs Hg Ha est gap.
  set (es := raw_angles ea closed r right).
  assert (Le : length es = length r).
  { unfold es, raw_angles. rewrite map_length, combine_length, tangents_length by exact Hn. lia. }
  assert (Lu : length (unwrap wr (map yaw es)) = length r).
  { rewrite <- Le. rewrite <- (map_length yaw es). destruct (map yaw es) as [|y ys]; [reflexivity|]. cbn [unwrap length]. f_equal.
    generalize y. clear. induction ys as [|z ys IH]; intros y; cbn [unwrap_from length]; [reflexivity|]. f_equal. apply IH. }
  assert (Hgap : gap_of r = gap) by (unfold gap_of, gap; rewrite last_nth, hd_nth; reflexivity).
  assert (G : closed = true -> gap <> 0).
  { intros C. destruct Ha as (_ & Ha). specialize (Ha C). pose proof (nonzero_norm _ (difference_nonzero _ _ Ha)). unfold gap. lra. }
  unfold est, estimate_elevation. cbn [e_direction e_yaw e_yaw_dot e_pitch e_pitch_dot e_roll e_roll_dot e_dyaw_dot e_dpitch_dot e_droll_dot e_nl e_nr e_dnl e_dnr].
  fold es. rewrite Hgap.
  split; [unfold track_direction; destruct (Rlt_dec _ _); auto|].
  repeat match goal with |- slopes _ _ _ _ _ _ /\ _ => split end;
    apply rates_slopes; rewrite ?rates_length, ?map_length, ?Lu, ?Le; rewrite ?map_length, ?Lu, ?Le; try lia; assumption.
Qed.

(** The widths of the estimate: the limits at that distance along the normal are the measured ones exactly
    where the right limit is seen at a right angle to the track. *)
Theorem C125_limits : forall rotmat2ea wrap_to_pi closed s r right,
  angles_of_rotation rotmat2ea -> wraps wrap_to_pi ->
  (2 <= length r)%nat -> length right = length r -> apart closed r ->
  (forall i t, (i < length r)%nat -> along closed r i t -> cross t (nth i right vzero) <> vzero) ->
  let est := estimate_elevation rotmat2ea wrap_to_pi closed s r right in
  forall i, (i < length r)%nat ->
  let e := Euler (nth i (e_yaw est) 0) (nth i (e_pitch est) 0) (nth i (e_roll est) 0) in
  let c := nth i r vzero in let m := nth i right vzero in
  (right_point c e (nth i (e_nr est) 0) = vadd c m <-> dot m (tangent e) = 0) /\
  (left_point c e (nth i (e_nl est) 0) = vsub c m <-> dot m (tangent e) = 0).
Proof.
  intros ea wr closed s r right Hea Hw Hn Hl Ha Hx est i Hi e c m.
  destruct (C125_laid_on_the_points ea wr closed s r right Hea Hw Hn Hl Ha Hx) as (_ & _ & _ & F & _).
  specialize (F i Hi). fold est in F. fold e in F. destruct F as (_ & F1 & F2). fold m in F1, F2.
  assert (Nr : nth i (e_nr est) 0 = norm m).
  { change (e_nr est) with (map norm right). rewrite (nth_indep _ 0 (norm vzero)) by (rewrite map_length; lia). apply map_nth. }
  change (e_nl est) with (e_nr est). rewrite Nr.
  destruct (frame_right_handed e) as (Ht & Hnn & Hb & Htn & Hnb & Htb & Hcr).
  assert (Dec : m = vadd (vadd (vscale (dot (tangent e) m) (tangent e)) (vscale (dot (normal e) m) (normal e))) (vscale (dot (binormal e) m) (binormal e))).
  { symmetry. apply (rotation_back (M3 (tangent e) (normal e) (binormal e)) m). exact (frame_right_handed e). }
  clearbody m.
  assert (K : m = vscale (norm m) (normal e) <-> dot m (tangent e) = 0).
  { split.
    - intros H. rewrite H, dot_scale_l, (dot_comm (normal e)), Htn. ring.
    - intros H. rewrite (dot_comm (tangent e)), (dot_comm (normal e)), (dot_comm (binormal e)), H, F1 in Dec.
      assert (M : m = vscale (dot m (normal e)) (normal e)).
      { etransitivity; [exact Dec|]. unfold vadd, vscale. destruct (tangent e), (normal e), (binormal e). cbn. f_equal; ring. }
      assert (N : norm m = dot m (normal e)).
      { assert (D : dot m m = dot m (normal e) * dot m (normal e)).
        { transitivity (dot (vscale (dot m (normal e)) (normal e)) m); [rewrite <- M; reflexivity|]. rewrite dot_scale_l, (dot_comm (normal e)). reflexivity. }
        unfold norm. rewrite D. apply sqrt_square. lra. }
      rewrite N. exact M. }
  rewrite <- K. unfold right_point, left_point, coordinates, vadd, vsub, vscale. destruct m as [m1 m2 m3], c as [c1 c2 c3], (normal e) as [n1 n2 n3]. cbn [vx vy vz].
  split; (split; intros H; injection H as E1 E2 E3; f_equal; cbn [vx vy vz] in *; lra).
Qed.

(** The solver starts from this road: the circuit read from the start vector goes through the
    measured points and is laid on them. *)
Theorem C125_the_solver_starts_there : forall rotmat2ea wrap_to_pi closed s r right ds last_ds,
  angles_of_rotation rotmat2ea -> wraps wrap_to_pi ->
  (2 <= length r)%nat -> length right = length r -> apart closed r ->
  (forall i t, (i < length r)%nat -> along closed r i t -> cross t (nth i right vzero) <> vzero) ->
  let est := estimate_elevation rotmat2ea wrap_to_pi closed s r right in
  exists c, export_circuit closed true (length r) ds last_ds (start_vector true (guesses true r est)) = M_Controls.Ok c /\
  forall i, (i < length r)%nat -> exists p, nth_error (co_points c) i = Some p /\
    tp_center p = nth i r vzero /\ laid_on closed r right i (tp_angles p) /\
    yaw (tp_rates p) = nth i (e_yaw_dot est) 0 /\ pitch (tp_rates p) = nth i (e_pitch_dot est) 0 /\ roll (tp_rates p) = nth i (e_roll_dot est) 0 /\
    tp_nl p = norm (nth i right vzero) /\ tp_nr p = norm (nth i right vzero).
Proof.
  intros ea wr closed s r right ds last_ds Hea Hw Hn Hl Ha Hx est.
  destruct (C125_laid_on_the_points ea wr closed s r right Hea Hw Hn Hl Ha Hx) as (_ & _ & _ & F & _). fold est in F.
  assert (Lg : length (guesses true r est) = length r) by (unfold guesses; rewrite map_length, seq_length; reflexivity).
  destruct (C99_start_vector_is_the_estimate closed true (guesses true r est) ds last_ds) as (_ & c & Ec & _ & Hc).
  { intros E. rewrite E in Lg. cbn in Lg. lia. }
  rewrite Lg in Ec. exists c. split; [exact Ec|]. intros i Hi.
  destruct (Hc i (guess_at true r est i)) as (p & Ep & P1 & P2 & P3 & _ & P5 & P6 & _).
  { unfold guesses. rewrite nth_error_map, (nth_error_of (seq 0 (length r)) i 0%nat) by (rewrite seq_length; exact Hi).
    cbn [option_map]. rewrite seq_nth by exact Hi. reflexivity. }
  exists p. split; [exact Ep|]. rewrite P1, P2, P3, P5, P6.
  assert (Nr : nth i (e_nr est) 0 = norm (nth i right vzero)).
  { change (e_nr est) with (map norm right). rewrite (nth_indep _ 0 (norm vzero)) by (rewrite map_length; lia). apply map_nth. }
  split; [cbn [guess_at g_x g_y g_z]; destruct (nth i r vzero); reflexivity|]. split; [exact (F i Hi)|].
  split; [reflexivity|]. split; [reflexivity|]. split; [reflexivity|]. split; exact Nr.
Qed.

(** Every list of an estimate, flat or not, is in the start vector: the circuit read from it has its values
    at every point. *)
Theorem C125_the_whole_estimate : forall el closed r est ds last_ds, r <> [] ->
  exists c, export_circuit closed el (length r) ds last_ds (start_vector el (guesses el r est)) = M_Controls.Ok c /\
  forall i, (i < length r)%nat -> exists p, nth_error (co_points c) i = Some p /\
    let v l := nth i l 0 in let e l := if el then nth i l 0 else 0 in
    tp_center p = V (vx (nth i r vzero)) (vy (nth i r vzero)) (if el then vz (nth i r vzero) else 0) /\
    tp_angles p = Euler (v (e_yaw est)) (e (e_pitch est)) (e (e_roll est)) /\
    tp_rates p = Euler (v (e_yaw_dot est)) (e (e_pitch_dot est)) (e (e_roll_dot est)) /\
    tp_accel p = Euler (v (e_dyaw_dot est)) (e (e_dpitch_dot est)) (e (e_droll_dot est)) /\
    tp_nl p = v (e_nl est) /\ tp_nr p = v (e_nr est) /\ tp_dnl p = v (e_dnl est) /\ tp_dnr p = v (e_dnr est).
Proof.
  intros el closed r est ds last_ds Hr.
  assert (Lg : length (guesses el r est) = length r) by (unfold guesses; rewrite map_length, seq_length; reflexivity).
  destruct (C99_start_vector_is_the_estimate closed el (guesses el r est) ds last_ds) as (_ & c & Ec & _ & Hc).
  { intros E. rewrite E in Lg. destruct r; [congruence|discriminate Lg]. }
  rewrite Lg in Ec. exists c. split; [exact Ec|]. intros i Hi.
  destruct (Hc i (guess_at el r est i)) as (p & Ep & P1 & P2 & P3 & P4 & P5 & P6 & P7 & P8).
  { unfold guesses. rewrite nth_error_map, (nth_error_of (seq 0 (length r)) i 0%nat) by (rewrite seq_length; exact Hi).
    cbn [option_map]. rewrite seq_nth by exact Hi. reflexivity. }
  exists p. split; [exact Ep|]. cbv zeta. rewrite P1, P2, P3, P4, P5, P6, P7, P8.
  unfold guess_at. cbn [g_x g_y g_z g_yaw g_pitch g_roll g_yaw_dot g_pitch_dot g_roll_dot g_dyaw_dot g_dpitch_dot g_droll_dot g_nl g_nr g_dnl g_dnr].
  destruct el; repeat split; reflexivity.
Qed.

(** *** The flat track *)
Definition flat_point (p : vec) : vec := V (vx p) (vy p) 0.
(** atan2 of the standard library: the direction of a vector that is not null. *)
Definition direction_angle (atan2 : R -> R -> R) : Prop :=
  forall x y, ~ (x = 0 /\ y = 0) -> exists k, 0 < k /\ x = k * cos (atan2 y x) /\ y = k * sin (atan2 y x).

Section Flat.
Context (atan2 : R -> R -> R) (Hat : direction_angle atan2).
Lemma heading_points a b : flat_point a <> flat_point b -> points_to (direction_flat (heading atan2 a b)) (flat_point a) (flat_point b).
Proof.
  intros H. destruct (Hat (vx b - vx a) (vy b - vy a)) as (k & K & X & Y).
  - intros [E1 E2]. apply H. unfold flat_point. f_equal; lra.
  - exists k. split; [exact K|]. unfold flat_point, direction_flat, vsub, vscale. cbn. unfold heading. f_equal; [exact X|exact Y|ring].
Qed.
Lemma headings_length r : length (segment_headings atan2 r) = (length r - 1)%nat.
Proof.
  induction r as [|a [|b r] IH]; [reflexivity|reflexivity|].
  change (segment_headings atan2 (a :: b :: r)) with (heading atan2 a b :: segment_headings atan2 (b :: r)).
  cbn [length]. rewrite IH. cbn [length]. lia.
Qed.
Lemma headings_nth r i : (S i < length r)%nat ->
  nth i (segment_headings atan2 r) 0 = heading atan2 (nth i r vzero) (nth (S i) r vzero).
Proof.
  revert i. induction r as [|a [|b r] IH]; intros i H; cbn [length] in H; [lia|lia|].
  change (segment_headings atan2 (a :: b :: r)) with (heading atan2 a b :: segment_headings atan2 (b :: r)).
  destruct i as [|i]; [reflexivity|]. change (nth i (segment_headings atan2 (b :: r)) 0 = heading atan2 (nth i (b :: r) vzero) (nth (S i) (b :: r) vzero)).
  apply IH. cbn [length]. lia.
Qed.
Lemma raw_headings_length closed r : (2 <= length r)%nat -> length (raw_headings atan2 closed r) = length r.
Proof. intros H. unfold raw_headings. rewrite app_length, headings_length. cbn. lia. Qed.
Lemma raw_heading_along closed r i : (2 <= length r)%nat -> apart closed (map flat_point r) -> (i < length r)%nat ->
  along closed (map flat_point r) i (direction_flat (nth i (raw_headings atan2 closed r) 0)).
Proof.
  intros Hn (Ha & Hc) Hi. rewrite map_length in *. unfold raw_headings, along. rewrite map_length.
  assert (M : forall j, nth j (map flat_point r) vzero = flat_point (nth j r vzero)) by (intros j; change vzero with (flat_point vzero) at 1; apply map_nth).
  rewrite !M. rewrite !M in Hc.
  assert (Ha' : forall j, (S j < length r)%nat -> flat_point (nth j r vzero) <> flat_point (nth (S j) r vzero)) by (intros j Hj; rewrite <- !M; auto).
  destruct (Nat.eqb_spec i (length r - 1)) as [E|E].
  - rewrite app_nth2 by (rewrite headings_length; lia). rewrite headings_length, E, Nat.sub_diag. cbn [nth]. destruct closed.
    + rewrite last_nth, hd_nth. apply heading_points. auto.
    + rewrite last_nth, headings_length, headings_nth by lia. replace (S (length r - 1 - 1)) with (length r - 1)%nat by lia. apply heading_points.
      replace (length r - 1)%nat with (S (length r - 1 - 1)) at 2 by lia. apply Ha'. lia.
  - rewrite app_nth1 by (rewrite headings_length; lia). rewrite headings_nth by lia. apply heading_points. apply Ha'. lia.
Qed.
End Flat.

(** On a flat track the heading is that of the way to the next point, and the derivatives are the
    slopes between the points. *)
Theorem C125_flat : forall wrap_to_pi atan2 closed s r dl dr,
  wraps wrap_to_pi -> direction_angle atan2 ->
  (2 <= length r)%nat -> length s = length r -> length dl = length r -> length dr = length r ->
  growing s -> apart closed (map flat_point r) ->
  let est := estimate_flat wrap_to_pi atan2 closed s r dl dr in
  let gap := norm (vsub (nth 0 r vzero) (nth (length r - 1) r vzero)) in
  length (e_yaw est) = length r /\
  (forall i, (i < length r)%nat -> along closed (map flat_point r) i (direction_flat (nth i (e_yaw est) 0))) /\
  (forall i, (S i < length r)%nat -> Rabs (nth (S i) (e_yaw est) 0 - nth i (e_yaw est) 0) <= PI) /\
  (e_direction est = 1 \/ e_direction est = -1) /\
  slopes closed (2 * PI * e_direction est) gap s (e_yaw est) (e_yaw_dot est) /\
  slopes closed 0 gap s (e_yaw_dot est) (e_dyaw_dot est) /\
  slopes closed 0 gap s (e_nl est) (e_dnl est) /\ slopes closed 0 gap s (e_nr est) (e_dnr est) /\
  (forall i, nth i (e_pitch est) 0 = 0 /\ nth i (e_roll est) 0 = 0 /\ nth i (e_pitch_dot est) 0 = 0 /\ nth i (e_roll_dot est) 0 = 0 /\
             nth i (e_dpitch_dot est) 0 = 0 /\ nth i (e_droll_dot est) 0 = 0) /\
  (forall i, (i < length r)%nat -> 0 <= nth i dl 0 -> 0 <= nth i dr 0 ->
     0 <= nth i (e_nl est) 0 /\ (nth i (e_nl est) 0) ^ 2 = nth i dl 0 /\ 0 <= nth i (e_nr est) 0 /\ (nth i (e_nr est) 0) ^ 2 = nth i dr 0).
Proof.
  intros wr at2 closed s r dl dr [Hw1 Hw2] Hat Hn Hs Hdl Hdr Hg Ha est gap.
  set (raw := raw_headings at2 closed r).
  assert (Lr : length raw = length r) by (apply raw_headings_length; exact Hn).
  destruct (C102_yaw_continuous wr raw Hw1 Hw2) as (L & J & S & _).
  assert (Hgap : gap_of r = gap) by (unfold gap_of, gap; rewrite last_nth, hd_nth; reflexivity).
  assert (G : closed = true -> gap <> 0).
  { intros C. destruct Ha as (_ & Ha). specialize (Ha C).
    assert (Hne : nth (length r - 1) r vzero <> nth 0 r vzero).
    { intros E. apply Ha. rewrite map_length. change vzero with (flat_point vzero). rewrite !map_nth. f_equal. exact E. }
    pose proof (nonzero_norm _ (difference_nonzero _ _ Hne)). unfold gap. lra. }
  unfold est, estimate_flat. cbn [e_direction e_yaw e_yaw_dot e_pitch e_pitch_dot e_roll e_roll_dot e_dyaw_dot e_dpitch_dot e_droll_dot e_nl e_nr e_dnl e_dnr].
  fold raw. rewrite Hgap. split; [lia|]. split.
  { intros i Hi. assert (Y : same_angle (nth i (unwrap wr raw) 0) (nth i raw 0)) by (apply (S i); apply nth_error_of; lia).
    apply same_angle_trig in Y as [C Si]. unfold direction_flat. rewrite C, Si. apply (raw_heading_along at2 Hat); assumption. }
  split; [intros i Hi; apply (J i); apply nth_error_of; lia|].
  split; [unfold track_direction; destruct (Rlt_dec _ _); auto|].
  split; [apply rates_slopes; rewrite ?rates_length, ?map_length; try lia; assumption|].
  split; [apply rates_slopes; rewrite ?rates_length, ?map_length; try lia; assumption|].
  split; [apply rates_slopes; rewrite ?rates_length, ?map_length; try lia; assumption|].
  split; [apply rates_slopes; rewrite ?rates_length, ?map_length; try lia; assumption|].
  split.
  - assert (Z : forall i, nth i (map (fun _ : vec => 0) r) 0 = 0).
    { intros i. change 0 with ((fun _ : vec => 0) vzero) at 2. rewrite map_nth. reflexivity. }
    intros i. rewrite Z. auto 10.
  - intros i Hi H1 H2. assert (Q : forall l, nth i (map sqrt l) 0 = sqrt (nth i l 0)).
    { intros l. rewrite <- sqrt_0 at 1. apply map_nth. }
    rewrite !Q. repeat split; try apply sqrt_pos; apply pow2_sqrt; assumption.
Qed.

(** *** Functions that do what is asked from lion, and a track *)
Definition angle_of (x y : R) : R := if Rle_dec 0 y then acos x else - acos x.
Lemma angle_of_ok x y : x * x + y * y = 1 -> cos (angle_of x y) = x /\ sin (angle_of x y) = y.
Proof.
  intros H. assert (B : -1 <= x <= 1).
  { pose proof (Rle_0_sqr y). unfold Rsqr in *. split; destruct (Rle_or_lt (-1) x), (Rle_or_lt x 1); try assumption; exfalso.
    all: assert (1 < x * x) by nra; lra. }
  unfold angle_of. destruct (Rle_dec 0 y) as [Y|Y].
  - rewrite cos_acos, sin_acos by exact B. split; [reflexivity|]. unfold Rsqr. replace (1 - x * x) with (y * y) by lra. apply sqrt_square; exact Y.
  - rewrite cos_neg, sin_neg, cos_acos, sin_acos by exact B. split; [reflexivity|]. unfold Rsqr. replace (1 - x * x) with (- y * - y) by lra. rewrite sqrt_square; lra.
Qed.
Definition some_atan2 (y x : R) : R := let h := sqrt (x * x + y * y) in angle_of (x / h) (y / h).
Lemma some_atan2_ok : direction_angle some_atan2.
Proof.
  intros x y H. assert (P : 0 < x * x + y * y).
  { pose proof (Rle_0_sqr x). pose proof (Rle_0_sqr y). unfold Rsqr in *. destruct (Req_dec x 0) as [->|Nx].
    - destruct (Req_dec y 0) as [->|Ny]; [tauto|]. assert (0 < y * y) by (destruct (Rdichotomy _ _ Ny); nra). lra.
    - assert (0 < x * x) by (destruct (Rdichotomy _ _ Nx); nra). lra. }
  exists (sqrt (x * x + y * y)). pose proof (sqrt_lt_R0 _ P) as Q. split; [exact Q|]. unfold some_atan2.
  assert (S : sqrt (x * x + y * y) * sqrt (x * x + y * y) = x * x + y * y) by (apply sqrt_sqrt; lra).
  set (h := sqrt _) in *. destruct (angle_of_ok (x / h) (y / h)) as [-> ->].
  - transitivity ((x * x + y * y) / (h * h)); [field; lra|]. rewrite S. field. lra.
  - split; field; lra.
Qed.
Definition some_wrap (a : R) : R := a - 2 * PI * IZR (up (a / (2 * PI) - 1 / 2)).
Lemma some_wrap_ok : wraps some_wrap.
Proof.
  pose proof PI_RGT_0 as P. split; intros a.
  - unfold some_wrap. destruct (archimed (a / (2 * PI) - 1 / 2)) as [A1 A2]. set (k := IZR (up _)) in *.
    assert (E : a = 2 * PI * (a / (2 * PI))) by (field; lra). set (q := a / (2 * PI)) in *.
    assert (K1 : 0 <= 2 * PI * (k - (q - 1 / 2))) by (apply Rmult_le_pos; lra).
    assert (K2 : 0 <= 2 * PI * (q + 1 / 2 - k)) by (apply Rmult_le_pos; lra). split; lra.
  - exists (- up (a / (2 * PI) - 1 / 2))%Z. unfold some_wrap. rewrite opp_IZR. ring.
Qed.
Definition some_angles (m : mat) : euler :=
  let t := col1 m in let p := asin (- vz t) in
  let y := if Req_EM_T (cos p) 0 then 0 else angle_of (vx t / cos p) (vy t / cos p) in
  let n0 := V (- sin y) (cos y) 0 in
  Euler y p (angle_of (dot (col2 m) n0) (dot (col2 m) (cross t n0))).
Lemma some_angles_ok : angles_of_rotation some_angles.
Proof.
  intros m Hm. pose proof Hm as (Ht & Hn & _ & Htn & _ & _ & Hc).
  set (e := some_angles m). assert (T : tangent e = col1 m).
  { destruct m as [[t1 t2 t3] n b]. cbn [col1 col2 col3] in *. unfold dot in Ht. cbn in Ht.
    assert (B : -1 <= - t3 <= 1).
    { pose proof (Rle_0_sqr t1). pose proof (Rle_0_sqr t2). unfold Rsqr in *. split; [destruct (Rle_or_lt (-1) (- t3))|destruct (Rle_or_lt (- t3) 1)]; try assumption; exfalso; assert (1 < t3 * t3) by nra; lra. }
    unfold tangent, e, some_angles. cbn [yaw pitch roll col1 vx vy vz]. rewrite sin_asin by exact B. rewrite Ropp_involutive.
    assert (C : cos (asin (- t3)) * cos (asin (- t3)) = t1 * t1 + t2 * t2).
    { pose proof (sin2_cos2 (asin (- t3))) as SC. unfold Rsqr in SC. rewrite sin_asin in SC by exact B. lra. }
    set (c := cos (asin (- t3))) in *. destruct (Req_EM_T c 0) as [E|E].
    - assert (t1 = 0 /\ t2 = 0) as [-> ->].
      { rewrite E in C. pose proof (Rle_0_sqr t1). pose proof (Rle_0_sqr t2). unfold Rsqr in *. split; apply Rsqr_0_uniq; unfold Rsqr; lra. }
      rewrite E. f_equal; ring.
    - destruct (angle_of_ok (t1 / c) (t2 / c)) as [-> ->].
      + transitivity ((t1 * t1 + t2 * t2) / (c * c)); [field; exact E|]. rewrite <- C. field. exact E.
      + f_equal; field; exact E. }
  set (y := yaw e). set (n0 := V (- sin y) (cos y) 0).
  assert (R3 : roll e = angle_of (dot (col2 m) n0) (dot (col2 m) (cross (col1 m) n0))) by reflexivity.
  clearbody e.
  assert (H0 : right_handed (col1 m) n0 (cross (col1 m) n0)).
  { rewrite <- T. pose proof (frame_right_handed (Euler y (pitch e) 0)) as F.
    assert (T0 : tangent (Euler y (pitch e) 0) = tangent e) by reflexivity.
    assert (N0 : normal (Euler y (pitch e) 0) = n0) by (unfold normal, n0; cbn; rewrite sin_0, cos_0; f_equal; ring).
    rewrite T0, N0 in F. pose proof F as (_ & _ & _ & _ & _ & _ & F7). rewrite F7. exact F. }
  set (b0 := cross (col1 m) n0) in *.
  assert (Dec : col2 m = vadd (vadd (vscale (dot (col1 m) (col2 m)) (col1 m)) (vscale (dot n0 (col2 m)) n0)) (vscale (dot b0 (col2 m)) b0)).
  { symmetry. apply (rotation_back (M3 (col1 m) n0 b0) (col2 m)). exact H0. }
  rewrite Htn in Dec.
  assert (Dec2 : col2 m = vadd (vscale (dot (col2 m) n0) n0) (vscale (dot (col2 m) b0) b0)).
  { etransitivity; [exact Dec|]. rewrite (dot_comm n0), (dot_comm b0). unfold vadd, vscale. destruct (col1 m), n0, b0. cbn. f_equal; ring. }
  assert (U : dot (col2 m) n0 * dot (col2 m) n0 + dot (col2 m) b0 * dot (col2 m) b0 = 1).
  { destruct H0 as (_ & G2 & G3 & _ & G5 & _). clear - Hn Dec2 G2 G3 G5.
    set (p := dot (col2 m) n0) in *. set (q := dot (col2 m) b0) in *. clearbody p q.
    rewrite Dec2 in Hn. transitivity (p * p * dot n0 n0 + 2 * p * q * dot n0 b0 + q * q * dot b0 b0); [rewrite G2, G3, G5; ring|].
    rewrite <- Hn. unfold dot, vadd, vscale. cbn. ring. }
  destruct (angle_of_ok _ _ U) as [Cr Sr]. rewrite <- R3 in Cr, Sr.
  assert (B0 : b0 = V (cos y * sin (pitch e)) (sin y * sin (pitch e)) (cos (pitch e))).
  { unfold b0. rewrite <- T. unfold cross, n0, tangent. cbn [vx vy vz]. fold y. apply vec_eq; cbn [vx vy vz]; [ring|ring|].
    pose proof (sin2_cos2 y) as SC. unfold Rsqr in SC. transitivity (cos (pitch e) * (sin y * sin y + cos y * cos y)); [ring|rewrite SC; ring]. }
  assert (N : normal e = col2 m).
  { rewrite Dec2, <- Cr, <- Sr, B0. unfold normal, vadd, vscale, n0. cbn [vx vy vz]. fold y. f_equal; ring. }
  split; [exact T|]. split; [exact N|].
  pose proof (frame_right_handed e) as (_ & _ & _ & _ & _ & _ & F7). rewrite <- F7, T, N. exact Hc.
Qed.

(** A closed track with three corners at different heights. *)
Definition ex_points : list vec := [V 0 0 0; V 100 0 5; V 50 80 2].
Definition ex_right : list vec := [V 0 5 0; V (-4) 3 0; V (-1) (-6) 1].
Example C125_case :
  angles_of_rotation some_angles /\ wraps some_wrap /\ direction_angle some_atan2 /\
  (2 <= length ex_points)%nat /\ length ex_right = length ex_points /\ apart true ex_points /\ apart true (map flat_point ex_points) /\ growing [0; 100; 200] /\
  (forall i t, (i < length ex_points)%nat -> along true ex_points i t -> cross t (nth i ex_right vzero) <> vzero).
Proof.
  split; [exact some_angles_ok|]. split; [exact some_wrap_ok|]. split; [exact some_atan2_ok|]. cbn [ex_points ex_right length].
  split; [lia|]. split; [reflexivity|].
  assert (D : forall x1 y1 z1 x2 y2 z2, x1 <> x2 -> V x1 y1 z1 <> V x2 y2 z2) by (intros x1 y1 z1 x2 y2 z2 H E; injection E as E _ _; auto).
  split; [split; [intros [|[|i]] Hi; cbn in *; try lia; apply D; lra|intros _; cbn; apply D; lra]|].
  split; [split; [intros [|[|i]] Hi; cbn in *; try lia; apply D; cbn; lra|intros _; cbn; apply D; cbn; lra]|].
  split; [intros [|[|i]] Hi; cbn in *; try lia; lra|].
  intros i t Hi A C. destruct t as [x y z]. unfold cross, vzero in C. injection C as C1 C2 C3.
  destruct i as [|[|[|i]]]; [| | |lia]; destruct A as (k & K & E); cbn in *; injection E as E1 E2 E3.
  - assert (x = 0) by lra. subst. lra.
  - assert (z = 0) by lra. subst. lra.
  - assert (Q : k * (z * -1 - x * 1) = 0) by (rewrite C2; ring). lra.
Qed.

Print Assumptions C125_laid_on_the_points.
Print Assumptions C125_slopes_with_elevation.
Print Assumptions C125_limits.
Print Assumptions C125_the_solver_starts_there.
Print Assumptions C125_the_whole_estimate.
Print Assumptions C125_flat.
