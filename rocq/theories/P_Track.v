(** Circuit files and the track built from a circuit. Properties C42, C46, C72, C73. *)
From Coq Require Import String QArith Qabs ZArith Bool Arith Lia Lqa List.
From Verif Require Import M_Controls M_Kerb M_Mesh M_Track S_Track L_Track L_Track2.
Import ListNotations.
Local Open Scope Q_scope.

(** A small closed circuit of four points with elevation and one kerb. *)
Definition four (a b c d : Q) : list Q := [a; b; c; d].
Definition sample_circuit (elev : bool) : circuit :=
  let z := four 0 0 0 0 in
  let p := [(0, 0, 0); (50 # 3, 0, 1); (30, 10, 2); (10, 30, 1)] in
  MkCircuit true elev 80 (0, 0, 0, 0) (50000, 1 # 10, 1 # 10, 1 # 10) (1000000, 1000000) (1 # 10, 2 # 100) 4
    (four 0 (50 # 3) 30 60) p p p p p (four 0 (3 # 2) 3 (9 # 2)) z z (four (1 # 50) (1 # 50) (1 # 50) (1 # 50)) (four 1 2 3 4) z
    (four 5 5 5 5) (four 6 6 6 6) z z z z z 1 true [MkKerb (50 # 3) 30 1 true] [].

Lemma sample_well_formed e : well_formed (sample_circuit e).
Proof. unfold well_formed. cbn. repeat split; try lia; discriminate. Qed.
Lemma sample_increasing e : increasing (sample_circuit e).
Proof. split; [|intros _; reflexivity]. intros [|[|[|i]]] H; cbn in H; try lia; reflexivity. Qed.

(** C42. Refuted: no track loaded from a 2D file can be saved. *)
Theorem C42_flat_track_save_refuted : forall d c, d_dimensions d = "2"%string -> load d = Ok c -> save c = UB.
Proof.
  intros d c Hd H. apply save_flat_ub. unfold load in H. rewrite Hd in H. cbn [String.eqb Ascii.eqb Bool.eqb] in H.
  destruct (if String.eqb (d_type d) "closed" then Ok true else if String.eqb (d_type d) "open" then Ok false else Throw) as [cl| |]; try discriminate H.
  cbn [bind] in H.
  repeat match type of H with bind ?r _ = Ok _ => destruct r; cbn [bind] in H; [|discriminate H|discriminate H] end.
  injection H as <-. reflexivity.
Qed.
Example C42_example : exists d c, d_dimensions d = "2"%string /\ load d = Ok c /\ save c = UB.
Proof.
  exists (doc_of (sample_circuit false)), (as_saved (sample_circuit false)). split; [reflexivity|].
  assert (L : load (doc_of (sample_circuit false)) = Ok (as_saved (sample_circuit false))) by (apply load_doc, sample_well_formed).
  split; [exact L|]. apply (C42_flat_track_save_refuted (doc_of (sample_circuit false))); [reflexivity|exact L].
Qed.

(** Every circuit whose vectors have one entry per point (as computed by the preprocessor with
    or without elevation, or loaded from a 3D file) is saved without reading out of bounds. *)
Theorem C42_save_partial : forall c, well_formed c -> exists d, save c = Ok d.
Proof. intros c H. exists (doc_of c). now apply save_ok. Qed.

(** C73. What is saved and loaded is the circuit, with kerbs and costs rounded to six decimals;
    a circuit without elevation loses heights, pitch and roll. *)
Theorem C73_save_then_load_partial : forall c, well_formed c ->
  exists d, save c = Ok d /\ load d = Ok (as_saved c).
Proof. intros c H. exists (doc_of c). split; [now apply save_ok|now apply load_doc]. Qed.
(** With at most six decimals in the kerbs, a circuit with elevation gives a track with the same values everywhere. *)
Theorem C73_same_track_partial : forall c d c', well_formed c -> ci_elevation c = true ->
  (forall k, In k (ci_left_kerb c) \/ In k (ci_right_kerb c) -> six_decimals_kerb k) ->
  save c = Ok d -> load d = Ok c' ->
  exists t t', make_track c = Ok t /\ make_track c' = Ok t' /\
  (forall s, t_position t' s = t_position t s /\ t_angles t' s = t_angles t s /\ t_rates t' s = t_rates t s) /\
  forall i, (i < ci_n c)%nat -> increasing c ->
    t_left_limit t' (nth i (ci_s c) 0) == t_left_limit t (nth i (ci_s c) 0) /\
    t_right_limit t' (nth i (ci_s c) 0) == t_right_limit t (nth i (ci_s c) 0).
Proof.
  intros c d c' W He Hk Hs Hl. rewrite (save_ok c W) in Hs. injection Hs as <-. rewrite (load_doc c W) in Hl. injection Hl as <-.
  destruct W as (Hn & (L1 & L2 & L3 & L4) & (M1 & M2) & (V1 & V2 & V3 & V4 & V5 & V6 & V7 & V8 & V9 & V10 & V11 & V12 & V13) & _).
  exists (track_of c), (track_of (as_saved c)).
  assert (U : usable c). { unfold usable. repeat split; auto. }
  assert (U' : usable (as_saved c)).
  { unfold usable, as_saved. destruct (ci_costs c) as [[[k1 k2] k3] k4]. cbn. rewrite He. repeat split; auto. }
  split; [now apply make_track_ok|split; [now apply make_track_ok|split]].
  - intros s. unfold as_saved, track_of, t_position, t_angles, t_rates. destruct (ci_costs c) as [[[k1 k2] k3] k4]. cbn -[pwl]. rewrite He. auto.
  - intros i Hi [Hinc Hend].
    assert (E : forall ks w, length w = ci_n c -> pwl (combine (arcs (ci_closed c) (ci_s c) (ci_length c)) (closedv (ci_closed c) 0 (widened ks (ci_s c) w))) (nth i (ci_s c) 0)
                == nth i w 0 + kerb_widening ks (nth i (ci_s c) 0)).
    { intros ks w Hw. now apply (limit_node _ _ _ (ci_n c)). }
    assert (EL : t_wl (track_of (as_saved c)) = combine (arcs (ci_closed c) (ci_s c) (ci_length c)) (closedv (ci_closed c) 0 (widened (map write_kerb (ci_left_kerb c)) (ci_s c) (ci_nl c)))).
    { unfold as_saved. destruct (ci_costs c) as [[[k1 k2] k3] k4]. reflexivity. }
    assert (ER : t_wr (track_of (as_saved c)) = combine (arcs (ci_closed c) (ci_s c) (ci_length c)) (closedv (ci_closed c) 0 (widened (map write_kerb (ci_right_kerb c)) (ci_s c) (ci_nr c)))).
    { unfold as_saved. destruct (ci_costs c) as [[[k1 k2] k3] k4]. reflexivity. }
    unfold t_left_limit, t_right_limit. rewrite EL, ER. cbn [track_of t_wl t_wr]. split.
    + eapply Qeq_trans; [apply E; assumption|]. apply Qeq_sym. eapply Qeq_trans; [apply E; assumption|]. apply Qeq_sym. apply Qplus_comp; [reflexivity|]. apply widening_rounded. auto.
    + eapply Qeq_trans; [apply E; assumption|]. apply Qeq_sym. eapply Qeq_trans; [apply E; assumption|]. apply Qeq_sym. apply Qplus_comp; [reflexivity|]. apply widening_rounded. auto.
Qed.
(** Without that, refuted: the point where a kerb starts may lose its kerb. *)
Theorem C73_reload_moves_track_limits_refuted : exists c d c' t t' s,
  well_formed c /\ increasing c /\ ci_elevation c = true /\ save c = Ok d /\ load d = Ok c' /\ make_track c = Ok t /\ make_track c' = Ok t' /\
  In s (ci_s c) /\ t_left_limit t s == 6 /\ t_left_limit t' s == 5.
Proof.
  set (c := sample_circuit true). assert (W : well_formed c) by apply sample_well_formed.
  exists c, (doc_of c), (as_saved c), (track_of c), (track_of (as_saved c)), (50 # 3).
  split; [exact W|]. split; [apply sample_increasing|]. split; [reflexivity|]. split; [now apply save_ok|]. split; [now apply load_doc|].
  split; [|split]; [apply make_track_ok; unfold usable; cbn; repeat split; auto; lia|apply make_track_ok; unfold usable; cbn; repeat split; auto; lia|].
  split; [right; left; reflexivity|]. split; vm_compute; reflexivity.
Qed.

(** C72. At every mesh point the track has the position, angles, rate of yaw and widths of the
    circuit; a closed track ends with the values of its first point. *)
Theorem C72_values_at_mesh_points_partial : forall c, well_formed c -> increasing c ->
  exists t, make_track c = Ok t /\
  forall i, (i < ci_n c)%nat ->
    let s := nth i (ci_s c) 0 in
    let e (v : list Q) := if ci_elevation c then nth i v 0 else 0 in
    point_eq (t_position t s) (nth i (ci_center c) origin) /\
    point_eq (t_angles t s) (nth i (ci_yaw c) 0, e (ci_pitch c), e (ci_roll c)) /\
    fst (fst (t_rates t s)) == nth i (ci_dyaw c) 0 /\
    t_left_limit t s == nth i (ci_nl c) 0 + kerb_widening (ci_left_kerb c) s /\
    t_right_limit t s == nth i (ci_nr c) 0 + kerb_widening (ci_right_kerb c) s.
Proof.
  intros c (Hn & (L1 & L2 & L3 & L4) & (M1 & M2) & (V1 & V2 & V3 & V4 & V5 & V6 & V7 & V8 & V9 & V10 & V11 & V12 & V13) & _) [Hinc Hend].
  exists (track_of c). split; [apply make_track_ok; unfold usable; repeat split; auto|]. intros i Hi. cbv zeta.
  pose proof (fun v H => eval_node (ci_closed c) (ci_s c) (ci_length c) (ci_n c) Hn L1 Hinc Hend v i H Hi) as E.
  unfold point_eq, t_position, t_angles, t_rates, t_left_limit, t_right_limit, track_of. cbn [fst snd t_x t_y t_z t_yaw t_pitch t_roll t_dyaw t_wl t_wr].
  split; [|split; [|split; [|split]]].
  - rewrite !E by (rewrite map_length; assumption).
    rewrite (map_nth px (ci_center c) origin i : nth i (map px (ci_center c)) 0 = _), (map_nth py (ci_center c) origin i : nth i (map py (ci_center c)) 0 = _),
            (map_nth pz (ci_center c) origin i : nth i (map pz (ci_center c)) 0 = _).
    repeat split; reflexivity.
  - destruct (ci_elevation c); [rewrite !E by assumption; repeat split; reflexivity|rewrite !E by assumption; cbn; repeat split; reflexivity].
  - now rewrite !E by assumption.
  - now apply (limit_node _ _ _ (ci_n c)).
  - now apply (limit_node _ _ _ (ci_n c)).
Qed.
(** The widening is the width of the used kerb that contains the point, if there is one. *)
Theorem C72_kerb_widening : forall ks s,
  ((forall k, In k ks -> k_used k = true -> s <= k_start k - (1 # 10 ^ 12) \/ k_finish k + (1 # 10 ^ 12) <= s) -> kerb_widening ks s = 0) /\
  (forall k, In k ks -> k_used k = true -> k_start k <= s <= k_finish k ->
    (forall k', In k' ks -> k_used k' = true -> k' = k \/ s <= k_start k' - (1 # 10 ^ 12) \/ k_finish k' + (1 # 10 ^ 12) <= s) ->
    kerb_widening ks s = k_width k).
Proof. intros ks s. split; [apply widening_none|]. intros k. apply widening_some. Qed.
Theorem C72_closed_track_ends_at_first_point : forall c, well_formed c -> increasing c -> ci_closed c = true ->
  exists t, make_track c = Ok t /\ point_eq (t_position t (ci_length c)) (nth 0 (ci_center c) origin) /\
  t_left_limit t (ci_length c) == nth 0 (ci_nl c) 0 + kerb_widening (ci_left_kerb c) (nth 0 (ci_s c) 0) /\
  t_right_limit t (ci_length c) == nth 0 (ci_nr c) 0 + kerb_widening (ci_right_kerb c) (nth 0 (ci_s c) 0) /\
  fst (fst (t_rates t (ci_length c))) == nth 0 (ci_dyaw c) 0.
Proof.
  intros c (Hn & (L1 & L2 & L3 & L4) & (M1 & M2) & (V1 & V2 & V3 & V4 & V5 & V6 & V7 & V8 & V9 & V10 & V11 & V12 & V13) & _) [Hinc Hend] Hc.
  exists (track_of c). split; [apply make_track_ok; unfold usable; repeat split; auto|].
  pose proof (fun v H => eval_end (ci_closed c) (ci_s c) (ci_length c) (ci_n c) Hn L1 Hinc Hend v Hc H) as E.
  assert (HD : forall v : list Q, hd 0 v = nth 0 v 0) by (intros []; reflexivity).
  unfold point_eq, t_position, t_rates, t_left_limit, t_right_limit, track_of. cbn [fst snd t_x t_y t_z t_dyaw t_wl t_wr].
  split; [|split; [|split]].
  - rewrite !E by now rewrite map_length. rewrite !HD.
    rewrite (map_nth px (ci_center c) origin 0 : nth 0 (map px (ci_center c)) 0 = _), (map_nth py (ci_center c) origin 0 : nth 0 (map py (ci_center c)) 0 = _),
            (map_nth pz (ci_center c) origin 0 : nth 0 (map pz (ci_center c)) 0 = _).
    repeat split; reflexivity.
  - now apply (limit_end _ _ _ (ci_n c)).
  - now apply (limit_end _ _ _ (ci_n c)).
  - rewrite E by assumption. rewrite HD. reflexivity.
Qed.
(** With elevation the pitch and roll rates of the track at the mesh points are the
    second derivatives of the circuit. *)
Theorem C72_pitch_rate_is_second_derivative : forall c, well_formed c -> increasing c -> ci_elevation c = true ->
  exists t, make_track c = Ok t /\ forall i, (i < ci_n c)%nat ->
    snd (fst (t_rates t (nth i (ci_s c) 0))) == nth i (ci_d2pitch c) 0 /\ snd (t_rates t (nth i (ci_s c) 0)) == nth i (ci_d2roll c) 0.
Proof.
  intros c (Hn & (L1 & L2 & L3 & L4) & (M1 & M2) & (V1 & V2 & V3 & V4 & V5 & V6 & V7 & V8 & V9 & V10 & V11 & V12 & V13) & _) [Hinc Hend] He.
  exists (track_of c). split; [apply make_track_ok; unfold usable; repeat split; auto|]. intros i Hi.
  pose proof (fun v H => eval_node (ci_closed c) (ci_s c) (ci_length c) (ci_n c) Hn L1 Hinc Hend v i H Hi) as E.
  unfold t_rates, track_of. cbn [fst snd t_dpitch t_droll]. rewrite He, !E by assumption. split; reflexivity.
Qed.
(** Refuted: the track reports pitch rate 0 where the circuit has pitch rate 2. *)
Theorem C72_pitch_rate_refuted : exists c t, well_formed c /\ increasing c /\ ci_elevation c = true /\ make_track c = Ok t /\
  nth 1 (ci_dpitch c) 0 == 2 /\ snd (fst (t_rates t (nth 1 (ci_s c) 0))) == 0.
Proof.
  exists (sample_circuit true), (track_of (sample_circuit true)).
  split; [apply sample_well_formed|]. split; [apply sample_increasing|]. split; [reflexivity|].
  split; [apply make_track_ok; unfold usable; cbn; repeat split; auto; lia|]. split; vm_compute; reflexivity.
Qed.
Example C72_example : well_formed (sample_circuit true) /\ increasing (sample_circuit true) /\ ci_closed (sample_circuit true) = true /\
  nth 1 (ci_dpitch (sample_circuit true)) 0 = 2 /\
  exists t, make_track (sample_circuit true) = Ok t /\ snd (fst (t_rates t (50 # 3))) == 0 /\ t_left_limit t (50 # 3) == 6.
Proof.
  split; [apply sample_well_formed|]. split; [apply sample_increasing|]. split; [reflexivity|]. split; [reflexivity|].
  exists (track_of (sample_circuit true)). split; [apply make_track_ok; unfold usable; cbn; repeat split; auto; lia|]. split; vm_compute; reflexivity.
Qed.

(** C46. Between mesh points the heading goes straight from one value to the next ... *)
Theorem C46_heading_between_mesh_points_partial : forall c, well_formed c -> increasing c ->
  exists t, make_track c = Ok t /\ forall i x, (S i < ci_n c)%nat -> nth i (ci_s c) 0 <= x <= nth (S i) (ci_s c) 0 ->
    fst (fst (t_angles t x)) == nth i (ci_yaw c) 0 +
      (x - nth i (ci_s c) 0) / (nth (S i) (ci_s c) 0 - nth i (ci_s c) 0) * (nth (S i) (ci_yaw c) 0 - nth i (ci_yaw c) 0).
Proof.
  intros c (Hn & (L1 & L2 & L3 & L4) & (M1 & M2) & (V1 & V2 & V3 & V4 & V5 & V6 & V7 & V8 & V9 & V10 & V11 & V12 & V13) & _) [Hinc Hend].
  exists (track_of c). split; [apply make_track_ok; unfold usable; repeat split; auto|]. intros i x Hi Hx.
  unfold t_angles, track_of. cbn [fst snd t_yaw].
  exact (eval_between (ci_closed c) (ci_s c) (ci_length c) (ci_n c) Hn L1 Hinc Hend (ci_yaw c) i x V1 Hi Hx).
Qed.
(** ... but between the last point and the finish line of a closed track it goes from the last
    heading to the first one without the full turn of the lap. *)
Theorem C46_last_element_unwinds_partial : forall c, well_formed c -> increasing c -> ci_closed c = true ->
  exists t, make_track c = Ok t /\ forall x, nth (ci_n c - 1) (ci_s c) 0 <= x <= ci_length c ->
    fst (fst (t_angles t x)) == nth (ci_n c - 1) (ci_yaw c) 0 +
      (x - nth (ci_n c - 1) (ci_s c) 0) / (ci_length c - nth (ci_n c - 1) (ci_s c) 0) * (nth 0 (ci_yaw c) 0 - nth (ci_n c - 1) (ci_yaw c) 0).
Proof.
  intros c (Hn & (L1 & L2 & L3 & L4) & (M1 & M2) & (V1 & V2 & V3 & V4 & V5 & V6 & V7 & V8 & V9 & V10 & V11 & V12 & V13) & _) [Hinc Hend] Hc.
  exists (track_of c). split; [apply make_track_ok; unfold usable; repeat split; auto|]. intros x Hx.
  unfold t_angles, track_of. cbn [fst snd t_yaw].
  assert (HD : forall v : list Q, nth 0 v 0 = hd 0 v) by (intros []; reflexivity). rewrite HD.
  exact (eval_last (ci_closed c) (ci_s c) (ci_length c) (ci_n c) Hn L1 Hinc Hend (ci_yaw c) x Hc V1 Hx).
Qed.
(** Refuted: a circuit turning by 3/2 rad per element, which closes with one more such turn, has at
    the middle of its last element a heading more than two radians away from the headings
    at both ends, whatever number of full turns is added. *)
Theorem C46_closing_heading_refuted : exists c t x, well_formed c /\ increasing c /\ ci_closed c = true /\ make_track c = Ok t /\
  last (ci_s c) 0 < x < ci_length c /\
  forall turn k, 6 <= turn <= 7 ->
    2 < Qabs (fst (fst (t_angles t x)) - (last (ci_yaw c) 0 + inject_Z k * turn)) /\
    2 < Qabs (fst (fst (t_angles t x)) - (hd 0 (ci_yaw c) + inject_Z k * turn)).
Proof.
  exists (sample_circuit true), (track_of (sample_circuit true)), 70.
  split; [apply sample_well_formed|]. split; [apply sample_increasing|]. split; [reflexivity|].
  split; [apply make_track_ok; unfold usable; cbn; repeat split; auto; lia|]. split; [split; reflexivity|].
  intros turn k Ht. set (m := fst (fst (t_angles (track_of (sample_circuit true)) 70))).
  assert (Hm : m == 9 # 4) by (vm_compute; reflexivity). rewrite Hm. cbn [last ci_yaw sample_circuit four hd].
  assert (K : (k <= -1 \/ k = 0 \/ 1 <= k)%Z) by lia.
  assert (KQ : inject_Z k <= -1 \/ inject_Z k == 0 \/ 1 <= inject_Z k).
  { destruct K as [K|[K|K]]; [left; change (-1) with (inject_Z (-1)); now rewrite <- Zle_Qle|right; left; subst; reflexivity|right; right; change 1 with (inject_Z 1); now rewrite <- Zle_Qle]. }
  assert (A : forall a, a < -2 \/ 2 < a -> 2 < Qabs a).
  { intros a [H|H]; [rewrite Qabs_neg by lra; lra|rewrite Qabs_pos by lra; exact H]. }
  destruct KQ as [K1|[K1|K1]].
  - assert (inject_Z k * turn <= -6) by nra. split; apply A; right; lra.
  - assert (inject_Z k * turn == 0) by (rewrite K1; ring). split; apply A; [left|right]; lra.
  - assert (6 <= inject_Z k * turn) by nra. split; apply A; left; lra.
Qed.

Print Assumptions C42_flat_track_save_refuted.
Print Assumptions C42_save_partial.
Print Assumptions C73_save_then_load_partial.
Print Assumptions C73_same_track_partial.
Print Assumptions C73_reload_moves_track_limits_refuted.
Print Assumptions C72_values_at_mesh_points_partial.
Print Assumptions C72_kerb_widening.
Print Assumptions C72_closed_track_ends_at_first_point.
Print Assumptions C72_pitch_rate_is_second_derivative.
Print Assumptions C72_pitch_rate_refuted.
Print Assumptions C46_heading_between_mesh_points_partial.
Print Assumptions C46_last_element_unwinds_partial.
Print Assumptions C46_closing_heading_refuted.
