(** Lemmas about the problem of the circuit preprocessor. *)
From Coq Require Import Reals Lra Lia Bool Arith.
From Coq Require Import List.
From Verif Require Import M_Controls M_Laptime M_Vec M_Road M_Errors M_Preproc S_Preproc.
Import ListNotations.
Local Open Scope R_scope.

Lemma rd_some A (l : list A) i a : nth_error l i = Some a -> rd l i = Ok a.
Proof. unfold rd. now intros ->. Qed.

Lemma nth_error_ex A (l : list A) i : (i < length l)%nat -> exists a, nth_error l i = Some a.
Proof. intro H. destruct (nth_error l i) eqn:E; [eauto|]. apply nth_error_None in E. lia. Qed.

Lemma all_ok_map A B (f : A -> res B) (g : A -> B) l : (forall a, In a l -> f a = Ok (g a)) -> all_ok (map f l) = Ok (map g l).
Proof.
  induction l as [|a l IH]; intro H; [reflexivity|]. simpl.
  rewrite (H a (or_introl eq_refl)). simpl. rewrite IH; [reflexivity|]. intros; apply H; now right.
Qed.

Lemma read_n_ok x k n : (k + n <= length x)%nat -> read_n x k n = Ok (map (fun j => nth (k + j) x 0) (seq 0 n)).
Proof.
  intro H. unfold read_n. apply all_ok_map. intros j Hj. apply in_seq in Hj.
  apply rd_some. apply nth_error_nth'. lia.
Qed.

(** The points as read from the vector of variables. *)
Definition point_at (el : bool) (x : list R) (k i : nat) : list R * list R :=
  (map (fun j => nth (k + (n_states el + n_ctrls el) * i + j)%nat x 0) (seq 0 (n_states el)),
   map (fun j => nth (k + (n_states el + n_ctrls el) * i + n_states el + j)%nat x 0) (seq 0 (n_ctrls el))).
Definition points_of (el : bool) (x : list R) (k n : nat) : list (list R * list R) := map (point_at el x k) (seq 0 n).

Lemma load_points_ok el x n : forall k, (k + (n_states el + n_ctrls el) * n <= length x)%nat ->
  load_points el x k n = Ok (points_of el x k n).
Proof.
  induction n as [|n IH]; intros k H; [reflexivity|]. cbn [load_points].
  rewrite read_n_ok by lia. cbn [bind]. rewrite read_n_ok by lia. cbn [bind].
  rewrite IH by lia. cbn [bind]. unfold points_of. cbn [seq map].
  f_equal. f_equal.
  - unfold point_at. f_equal; apply map_ext; intro j; f_equal; lia.
  - rewrite <- seq_shift, map_map. apply map_ext. intro i. unfold point_at.
    f_equal; apply map_ext; intro j; f_equal; lia.
Qed.

Lemma points_of_length el x k n : length (points_of el x k n) = n.
Proof. unfold points_of. now rewrite map_length, seq_length. Qed.

Lemma points_of_nth el x k n i : (i < n)%nat -> nth_error (points_of el x k n) i = Some (point_at el x k i).
Proof.
  intro H. unfold points_of. rewrite nth_error_map. rewrite (nth_error_nth' _ 0%nat) by (rewrite seq_length; lia).
  rewrite seq_nth by lia. reflexivity.
Qed.

Lemma distances_length cl curve pts : forall st, length (distances cl curve st pts) = length pts.
Proof. induction pts as [|p pts IH]; intro st; simpl; [reflexivity|]. now rewrite IH. Qed.

Lemma combine_nth_ex A B (a : list A) (b : list B) i x : nth_error a i = Some x -> length a = length b ->
  exists y, nth_error (combine a b) i = Some (x, y) /\ nth_error b i = Some y.
Proof.
  revert b i. induction a as [|a0 a IH]; intros [|b0 b] [|i] H L; simpl in *; try discriminate.
  - injection H as ->. eauto.
  - apply (IH b i H). lia.
Qed.

Lemma nodes_length cl el lc rc cc pts : length (nodes cl el lc rc cc pts) = length pts.
Proof. unfold nodes. rewrite map_length, !combine_length, !distances_length, !map_length. lia. Qed.

Lemma nodes_nth cl el lc rc cc pts i p : nth_error pts i = Some p ->
  exists a b c, nth_error (nodes cl el lc rc cc pts) i = Some (Node (fst p) (snd p) (equations el (fst p) (snd p)) a b c).
Proof.
  intro H. unfold nodes. rewrite nth_error_map.
  set (dl := distances cl lc 0 _). set (dr := distances cl rc 0 _). set (dc := distances cl cc 0 _).
  assert (Ll : length dl = length pts) by (unfold dl; rewrite distances_length, map_length; reflexivity).
  assert (Lr : length dr = length pts) by (unfold dr; rewrite distances_length, map_length; reflexivity).
  assert (Lc : length dc = length pts) by (unfold dc; rewrite distances_length, map_length; reflexivity).
  clearbody dl dr dc.
  destruct (combine_nth_ex _ _ pts (combine dl (combine dr dc)) i p H) as (y & -> & _).
  { rewrite !combine_length. lia. }
  destruct y as (a & b & c). simpl. eauto.
Qed.

Fixpoint sumR (l : list R) : R := match l with [] => 0 | a :: l' => a + sumR l' end.
Lemma sumR_app a b : sumR (a ++ b) = sumR a + sumR b.
Proof. induction a as [|x a IH]; simpl; [lra|]. rewrite IH. lra. Qed.

Lemma loop_acc A (body : nat -> R * list A -> res (R * list A)) f g n : forall a st,
  (forall i st, (a <= i < a + n)%nat -> body i st = Ok (fst st + f i, snd st ++ g i)) ->
  loop n a body st = Ok (fst st + sumR (map f (seq a n)), snd st ++ flat_map g (seq a n)).
Proof.
  induction n as [|n IH]; intros a st H; simpl.
  - rewrite Rplus_0_r, app_nil_r. now destruct st.
  - rewrite H by lia. simpl. rewrite IH; [|intros; apply H; lia]. simpl.
    rewrite app_assoc. f_equal. f_equal. lra.
Qed.

Lemma last_nth_error A (l : list A) d a : nth_error l (length l - 1) = Some a -> last l d = a.
Proof.
  induction l as [|x l IH]; [discriminate|]. destruct l as [|y l]; [simpl; congruence|].
  intro H. simpl. apply IH. simpl in *. now rewrite Nat.sub_0_r in *.
Qed.

(** The objective and the constraints, written out. *)
Section Eq.
  Context (cl : list vec -> vec -> bool -> nat -> R * (nat * nat)) (closed el : bool) (w : weights)
          (N : nat) (ds : list R) (last_ds : R) (lc rc cc : list vec) (dir : R) (x : list R).
  Definition the_nodes : list node := nodes cl el lc rc cc (points_of el x 1 N).
  Definition all_ds : list R := if closed then ds ++ [last_ds] else ds.
  Definition dnode : node := Node [] [] [] 0 0 0.
  Definition nd i := nth i the_nodes dnode.
  Definition the_factor := nth 0 x 0.
  Definition inner_cost i := element_cost el w (the_factor * nth (i - 1) ds 0) (nd (i - 1)) (nd i).
  Definition inner_defects i := element_defects el (the_factor * nth (i - 1) ds 0) 0 (nd (i - 1)) (nd i).

  Lemma nd_nth i : (i < N)%nat -> nth_error the_nodes i = Some (nd i).
  Proof. intro H. apply nth_error_nth'. unfold the_nodes. rewrite nodes_length, points_of_length. lia. Qed.

  Lemma nd_is i : (i < N)%nat -> exists a b c,
    nd i = Node (fst (point_at el x 1 i)) (snd (point_at el x 1 i))
             (equations el (fst (point_at el x 1 i)) (snd (point_at el x 1 i))) a b c.
  Proof.
    intro H. pose proof (nd_nth i H) as E. unfold the_nodes in E.
    destruct (nodes_nth cl el lc rc cc (points_of el x 1 N) i _ (points_of_nth el x 1 N i H)) as (a & b & c & E').
    exists a, b, c. congruence.
  Qed.

  Lemma fg_eq lf rf lb rb :
    length x = n_variables el N -> (1 <= N)%nat -> S (length ds) = N ->
    nth_error lc 0 = Some lf -> nth_error rc 0 = Some rf ->
    nth_error lc (length lc - 1) = Some lb -> nth_error rc (length rc - 1) = Some rb ->
    fg cl closed el w (length all_ds) N all_ds lc rc cc dir x =
    Ok (sumR (map inner_cost (seq 1 (N - 1)))
        + (if closed then closing_cost el w (the_factor * last_ds) (nd (N - 1)) (nd 0) else 0),
        flat_map inner_defects (seq 1 (N - 1))
        ++ (if closed then element_defects el (the_factor * last_ds) (2 * PI * dir) (nd (N - 1)) (nd 0) else [])
        ++ [line_constraint el lf rf (nq (nd 0))]
        ++ (if closed then [] else [line_constraint el lb rb (nq (nd (N - 1)))])).
  Proof.
    intros Hx HN Hds Hlf Hrf Hlb Hrb. unfold fg.
    assert (Lx : (1 + (n_states el + n_ctrls el) * N <= length x)%nat) by (rewrite Hx; unfold n_variables; lia).
    rewrite (rd_some _ x 0 the_factor) by (apply nth_error_nth'; lia). cbn [bind].
    rewrite load_points_ok by exact Lx. cbn [bind]. fold the_nodes.
    rewrite (rd_some _ the_nodes 0 (nd 0)) by (apply nd_nth; lia). cbn [bind].
    unfold inner_elements, for_range.
    rewrite (loop_acc _ _ inner_cost inner_defects).
    2:{ intros i st Hi.
        rewrite (rd_some _ the_nodes i (nd i)) by (apply nd_nth; lia). cbn [bind].
        rewrite (rd_some _ the_nodes (i - 1) (nd (i - 1))) by (apply nd_nth; lia). cbn [bind].
        rewrite (rd_some _ all_ds (i - 1) (nth (i - 1) ds 0)).
        - reflexivity.
        - unfold all_ds. destruct closed; [rewrite nth_error_app1 by lia|]; apply nth_error_nth'; lia. }
    cbn [bind fst snd].
    assert (LN : length the_nodes = N) by (unfold the_nodes; rewrite nodes_length, points_of_length; reflexivity).
    unfold all_ds. destruct closed.
    - assert (B : back (ds ++ [last_ds]) = Ok last_ds).
      { unfold back. destruct (ds ++ [last_ds]) eqn:E; [now destruct ds|]. rewrite <- E. apply rd_some.
        rewrite app_length. simpl. rewrite nth_error_app2 by lia. replace (_ - 1 - _)%nat with 0%nat by lia. reflexivity. }
      rewrite B. cbn [bind].
      rewrite (rd_some _ the_nodes _ (nd (N - 1))).
      2:{ rewrite app_length. simpl. replace (length ds + 1 - 1)%nat with (N - 1)%nat by lia. apply nd_nth. lia. }
      cbn [bind fst snd]. unfold front. rewrite (rd_some _ _ _ _ Hlf). cbn [bind]. rewrite (rd_some _ _ _ _ Hrf). cbn [bind].
      rewrite app_nil_l, Rplus_0_l. now rewrite <- app_assoc.
    - cbn [bind fst snd]. unfold front. rewrite (rd_some _ _ _ _ Hlf). cbn [bind]. rewrite (rd_some _ _ _ _ Hrf). cbn [bind fst snd].
      assert (B1 : back lc = Ok lb) by (unfold back; destruct lc; [discriminate|]; apply rd_some; exact Hlb).
      assert (B2 : back rc = Ok rb) by (unfold back; destruct rc; [discriminate|]; apply rd_some; exact Hrb).
      assert (B3 : back the_nodes = Ok (nd (N - 1))).
      { unfold back. destruct the_nodes eqn:E; [simpl in LN; lia|]. rewrite <- E in *. rewrite LN. apply rd_some, nd_nth. lia. }
      rewrite B1, B2, B3. cbn [bind]. rewrite app_nil_l, Rplus_0_l, Rplus_0_r. now rewrite <- app_assoc.
  Qed.
End Eq.

Lemma arclengths_length : forall ds s0 f, length (arclengths s0 f ds) = S (length ds).
Proof. induction ds as [|d ds IH]; intros; simpl; [reflexivity|]. now rewrite IH. Qed.

Lemma arclengths_step : forall ds s0 f i a b, nth_error (arclengths s0 f ds) i = Some a ->
  nth_error (arclengths s0 f ds) (S i) = Some b -> b - a = f * nth i ds 0.
Proof.
  induction ds as [|d ds IH]; intros s0 f i a b Ha Hb; simpl in *.
  - destruct i; discriminate.
  - destruct i; simpl in *.
    + injection Ha as <-. assert (b = s0 + d * f) by (destruct ds; simpl in Hb; congruence). subst. lra.
    + now apply (IH _ _ _ _ _ Ha Hb).
Qed.

Lemma defects_length el ds t p n : length (element_defects el ds t p n) = n_states el.
Proof. unfold element_defects. now rewrite map_length, seq_length. Qed.

Lemma defects_road tol el ds turn q u a b c q' u' a' b' c' : 0 <= tol ->
  Forall (fun e => Rabs e <= tol)
    (element_defects el ds turn (Node q u (equations el q u) a b c) (Node q' u' (equations el q' u') a' b' c')) ->
  road_element tol ds turn (export_point el (q, u)) (export_point el (q', u')).
Proof.
  intros Ht H. unfold element_defects in H.
  assert (Z0 : forall d, integrates tol d 0 0 0 0).
  { intro d. unfold integrates. replace (0 - 0 - d / 2 * (0 + 0)) with 0 by lra. now rewrite Rabs_R0. }
  destruct el.
  - cbn [n_states st_yaw seq map Nat.eqb nq ndq] in H.
    repeat match goal with H : Forall _ (_ :: _) |- _ => apply Forall_cons_iff in H; destruct H as [? H] end.
    unfold road_element, integrates, tangent, export_point, st_euler, get_coordinates, coordinates; cbn [tp_center tp_angles tp_rates tp_accel tp_nl tp_nr tp_dnl tp_dnr vx vy vz yaw pitch roll fst snd].
    unfold equations, at_, ct_dyaw_dot, ct_dpitch_dot, ct_droll_dot, ct_dnl, ct_dnr, st_x, st_y, st_z, st_yaw, st_pitch, st_roll, st_yaw_dot, st_pitch_dot, st_roll_dot, st_nl, st_nr in *.
    cbn [nth] in *.
    repeat split; match goal with |- Rabs ?t <= _ =>
      match goal with H : Rabs ?s <= _ |- _ => replace t with s by (try rewrite Rmult_0_r; lra); exact H end end.
  - cbn [n_states st_yaw seq map Nat.eqb nq ndq] in H.
    repeat match goal with H : Forall _ (_ :: _) |- _ => apply Forall_cons_iff in H; destruct H as [? H] end.
    unfold road_element, tangent, export_point, st_euler, get_coordinates, coordinates_flat; cbn [tp_center tp_angles tp_rates tp_accel tp_nl tp_nr tp_dnl tp_dnr vx vy vz yaw pitch roll fst snd].
    rewrite cos_0, sin_0, Ropp_0.
    unfold equations, at_, ct_dyaw_dot, ct_dpitch_dot, ct_droll_dot, ct_dnl, ct_dnr, st_x, st_y, st_z, st_yaw, st_pitch, st_roll, st_yaw_dot, st_pitch_dot, st_roll_dot, st_nl, st_nr in *.
    cbn [nth] in *.
    repeat split; try apply Z0; unfold integrates; match goal with |- Rabs ?t <= _ =>
      match goal with H : Rabs ?s <= _ |- _ => replace t with s by lra; exact H end end.
Qed.

Lemma line_near tol el l r q : dot (vsub l r) (vsub l r) <> 0 -> Rabs (line_constraint el l r q) <= tol ->
  on_line tol l r (get_coordinates el q 0).
Proof.
  unfold line_constraint, on_line. set (p := vsub l r). set (g := get_coordinates el q 0). intros Hn H.
  assert (Hp : 0 < dot p p).
  { assert (0 <= dot p p) by (unfold dot; nra). lra. }
  unfold Rdiv in H. rewrite Rabs_mult, (Rabs_right (/ dot p p)) in H by (left; now apply Rinv_0_lt_compat).
  apply (Rmult_le_compat_r (dot p p)) in H; [|lra].
  rewrite Rmult_assoc, Rinv_l, Rmult_1_r in H by lra.
  eapply Rle_trans; [right|exact H]. reflexivity.
Qed.

Lemma export_eq closed el N ds last_ds x : length x = n_variables el N -> (1 <= N)%nat ->
  export_circuit closed el N ds last_ds x =
  Ok (CircuitOut (arclengths 0 (the_factor x) ds)
        (last (arclengths 0 (the_factor x) ds) 0 + (if closed then last_ds * the_factor x else 0))
        (map (export_point el) (points_of el x 1 N))).
Proof.
  intros Hx HN. unfold export_circuit.
  assert (Lx : (1 + (n_states el + n_ctrls el) * N <= length x)%nat) by (rewrite Hx; unfold n_variables; lia).
  rewrite (rd_some _ x 0 (the_factor x)) by (apply nth_error_nth'; lia). cbn [bind].
  rewrite load_points_ok by exact Lx. reflexivity.
Qed.

Lemma export_points_nth el x N i p : nth_error (map (export_point el) (points_of el x 1 N)) i = Some p ->
  (i < N)%nat /\ p = export_point el (point_at el x 1 i).
Proof.
  intro H. rewrite nth_error_map in H.
  assert (Hi : (i < N)%nat).
  { destruct (lt_dec i N); [assumption|].
    rewrite (proj2 (nth_error_None (points_of el x 1 N) i)) in H by (rewrite points_of_length; lia). discriminate. }
  split; [exact Hi|]. rewrite (points_of_nth _ _ _ _ _ Hi) in H. simpl in H. congruence.
Qed.

(** ** Cost *)

Lemma element_cost_density el w ds p n : element_cost el w ds p n = ds / 2 * (density el w p + density el w n).
Proof. unfold element_cost, density. destruct el; lra. Qed.

Lemma inner_trapezoid el w f d : forall ns ds, length ns = S (length ds) ->
  sumR (map (fun i => element_cost el w (f * nth (i - 1) ds 0) (nth (i - 1) ns d) (nth i ns d)) (seq 1 (length ds)))
  = trapezoid (density el w) f ds ns.
Proof.
  intros ns ds. revert ns. induction ds as [|d0 ds IH]; intros [|p ns] H; simpl in H; try discriminate; [reflexivity|].
  destruct ns as [|n ns]; [discriminate|].
  cbn [length seq map sumR trapezoid].
  replace (nth (1 - 1) (d0 :: ds) 0) with d0 by reflexivity.
  replace (nth (1 - 1) (p :: n :: ns) d) with p by reflexivity.
  replace (nth 1 (p :: n :: ns) d) with n by reflexivity.
  rewrite element_cost_density, <- (IH (n :: ns)) by (simpl in *; lia).
  f_equal. f_equal. rewrite <- seq_shift, map_map. apply map_ext_in. intros i Hi. apply in_seq in Hi.
  destruct i as [|i]; [lia|]. simpl. now rewrite Nat.sub_0_r.
Qed.

Lemma trapezoid_closed f fac ld a : forall ns ds, length ns = S (length ds) ->
  trapezoid f fac (ds ++ [ld]) (ns ++ [a]) = trapezoid f fac ds ns + fac * ld / 2 * (f (last ns a) + f a).
Proof.
  intros ns ds. revert ns. induction ds as [|d0 ds IH]; intros [|p ns] H; simpl in H; try discriminate.
  - destruct ns; [|discriminate]. simpl. lra.
  - destruct ns as [|n ns]; [discriminate|]. cbn [app trapezoid].
    specialize (IH (n :: ns)). cbn [app] in IH. rewrite IH by (simpl in *; lia).
    replace (last (p :: n :: ns) a) with (last (n :: ns) a) by reflexivity. lra.
Qed.

(** The part of the density that the closing element leaves out. *)
Lemma closing_cost_density el w ds p n : closing_cost el w ds p n = ds / 2 * (density el w p + density el w n)
  - (if el then ds / 2 * (eps_pitch w * ((at_ (nu p) ct_dpitch_dot)^2 + (at_ (nu n) ct_dpitch_dot)^2)
                        + eps_roll w * ((at_ (nu p) ct_droll_dot)^2 + (at_ (nu n) ct_droll_dot)^2)) else 0).
Proof. unfold closing_cost, density. destruct el; lra. Qed.

(** ** Boxes *)

Lemma nth_error_flat_map A B (f : A -> list B) k : forall l, (forall a, In a l -> length (f a) = k) ->
  forall i j a, nth_error l i = Some a -> (j < k)%nat -> nth_error (flat_map f l) (k * i + j) = nth_error (f a) j.
Proof.
  induction l as [|b l IH]; intros Hk i j a Ha Hj; [destruct i; discriminate|].
  cbn [flat_map]. destruct i as [|i]; simpl in Ha.
  - injection Ha as ->. rewrite Nat.mul_0_r. apply nth_error_app1. rewrite (Hk a); [exact Hj|now left].
  - rewrite nth_error_app2 by (rewrite (Hk b (or_introl eq_refl)); nia).
    rewrite (Hk b (or_introl eq_refl)). replace (k * S i + j - k)%nat with (k * i + j)%nat by nia.
    apply IH; [intros; apply Hk; now right|assumption|assumption].
Qed.

Lemma flat_map_length_const A B (f : A -> list B) k l : (forall a, In a l -> length (f a) = k) ->
  length (flat_map f l) = (k * length l)%nat.
Proof.
  induction l as [|a l IH]; intro H; simpl; [lia|].
  rewrite app_length, (H a (or_introl eq_refl)), IH; [lia|]. intros; apply H; now right.
Qed.

Lemma start_point_length el g : length (start_point el g) = (n_states el + n_ctrls el)%nat.
Proof. now destruct el. Qed.
Lemma lower_point_length el w g : length (lower_point el w g) = (n_states el + n_ctrls el)%nat.
Proof. now destruct el. Qed.
Lemma upper_point_length el w g : length (upper_point el w g) = (n_states el + n_ctrls el)%nat.
Proof. now destruct el. Qed.

Lemma start_length el gs : length (start_vector el gs) = n_variables el (length gs).
Proof. unfold start_vector, n_variables. cbn [length]. rewrite (flat_map_length_const _ _ _ (n_states el + n_ctrls el)); [lia|]. intros; apply start_point_length. Qed.
Lemma lower_length el w gs : length (lower_vector el w gs) = n_variables el (length gs).
Proof. unfold lower_vector, n_variables. cbn [length]. rewrite (flat_map_length_const _ _ _ (n_states el + n_ctrls el)); [lia|]. intros; apply lower_point_length. Qed.
Lemma upper_length el w gs : length (upper_vector el w gs) = n_variables el (length gs).
Proof. unfold upper_vector, n_variables. cbn [length]. rewrite (flat_map_length_const _ _ _ (n_states el + n_ctrls el)); [lia|]. intros; apply upper_point_length. Qed.

Lemma lower_nth el w gs i g j : nth_error gs i = Some g -> (j < n_states el + n_ctrls el)%nat ->
  nth_error (lower_vector el w gs) (1 + (n_states el + n_ctrls el) * i + j) = nth_error (lower_point el w g) j.
Proof. intros Hg Hj. unfold lower_vector. cbn [nth_error Nat.add]. apply nth_error_flat_map; [intros; apply lower_point_length|exact Hg|exact Hj]. Qed.
Lemma upper_nth el w gs i g j : nth_error gs i = Some g -> (j < n_states el + n_ctrls el)%nat ->
  nth_error (upper_vector el w gs) (1 + (n_states el + n_ctrls el) * i + j) = nth_error (upper_point el w g) j.
Proof. intros Hg Hj. unfold upper_vector. cbn [nth_error Nat.add]. apply nth_error_flat_map; [intros; apply upper_point_length|exact Hg|exact Hj]. Qed.
Lemma start_nth el gs i g j : nth_error gs i = Some g -> (j < n_states el + n_ctrls el)%nat ->
  nth_error (start_vector el gs) (1 + (n_states el + n_ctrls el) * i + j) = nth_error (start_point el g) j.
Proof. intros Hg Hj. unfold start_vector. cbn [nth_error Nat.add]. apply nth_error_flat_map; [intros; apply start_point_length|exact Hg|exact Hj]. Qed.

(** Each variable of a vector inside of the box is between the bounds of its point. *)
Lemma box_point el w gs x i g : in_box (lower_vector el w gs) x (upper_vector el w gs) -> nth_error gs i = Some g ->
  forall j, (j < n_states el + n_ctrls el)%nat ->
  nth j (lower_point el w g) 0 <= nth (1 + (n_states el + n_ctrls el) * i + j) x 0 <= nth j (upper_point el w g) 0.
Proof.
  intros (L1 & L2 & H) Hg j Hj.
  assert (Hi : (i < length gs)%nat) by (apply nth_error_Some; congruence).
  assert (Hk : (1 + (n_states el + n_ctrls el) * i + j < length x)%nat).
  { rewrite <- L1, lower_length. unfold n_variables. nia. }
  apply (H (1 + (n_states el + n_ctrls el) * i + j)%nat).
  - rewrite (lower_nth _ _ _ _ _ _ Hg Hj). apply nth_error_nth'. now rewrite lower_point_length.
  - now apply nth_error_nth'.
  - rewrite (upper_nth _ _ _ _ _ _ Hg Hj). apply nth_error_nth'. now rewrite upper_point_length.
Qed.

Lemma box_factor el w gs x : in_box (lower_vector el w gs) x (upper_vector el w gs) -> 0.9 <= the_factor x <= 1.11.
Proof.
  intros (L1 & L2 & H). assert (Hk : (0 < length x)%nat) by (rewrite <- L1; simpl; lia).
  apply (H 0%nat); [reflexivity|now apply nth_error_nth'|reflexivity].
Qed.

Lemma point_state el x i j : (j < n_states el)%nat ->
  at_ (fst (point_at el x 1 i)) j = nth (1 + (n_states el + n_ctrls el) * i + j) x 0.
Proof.
  intro H. unfold at_, point_at. cbn [fst].
  rewrite (nth_indep _ 0 (nth (1 + (n_states el + n_ctrls el) * i + 0) x 0)) by (rewrite map_length, seq_length; exact H).
  rewrite (map_nth (fun j => nth (1 + (n_states el + n_ctrls el) * i + j) x 0)). now rewrite seq_nth.
Qed.
Lemma point_ctrl el x i j : (j < n_ctrls el)%nat ->
  at_ (snd (point_at el x 1 i)) j = nth (1 + (n_states el + n_ctrls el) * i + n_states el + j) x 0.
Proof.
  intro H. unfold at_, point_at. cbn [snd].
  rewrite (nth_indep _ 0 (nth (1 + (n_states el + n_ctrls el) * i + n_states el + 0) x 0)) by (rewrite map_length, seq_length; exact H).
  rewrite (map_nth (fun j => nth (1 + (n_states el + n_ctrls el) * i + n_states el + j) x 0)). now rewrite seq_nth.
Qed.

Lemma arclengths_increasing ds s0 f : 0 < f -> Forall (fun d => 0 < d) ds -> increasing (arclengths s0 f ds).
Proof.
  intros Hf Hd i a b Ha Hb. pose proof (arclengths_step _ _ _ _ _ _ Ha Hb) as E.
  assert (Hi : (S i < length (arclengths s0 f ds))%nat) by (apply nth_error_Some; congruence).
  rewrite arclengths_length in Hi. rewrite Forall_forall in Hd.
  assert (0 < nth i ds 0) by (apply Hd, nth_In; lia). nra.
Qed.

Lemma arclengths_last ds : forall s0 f, last (arclengths s0 f ds) 0 = s0 + f * sumR ds.
Proof.
  induction ds as [|d ds IH]; intros; [simpl; lra|]. cbn [arclengths].
  replace (last (s0 :: arclengths (s0 + d * f) f ds) 0) with (last (arclengths (s0 + d * f) f ds) 0) by (destruct ds; reflexivity).
  rewrite IH. simpl. lra.
Qed.

Lemma Rabs_le_both a b : Rabs a <= b -> - b <= a <= b.
Proof. unfold Rabs. destruct (Rcase_abs a); lra. Qed.
