(** The minimum curvature path. *)
From Coq Require Import Reals Lra Lia Bool Arith.
From Coq Require Import List.
From Verif Require Import M_Controls M_Laptime M_Vec M_Road M_Preproc S_Preproc L_Preproc M_MinCurv S_MinCurv L_MinCurv.
Import ListNotations.
Local Open Scope R_scope.

(** ** C103: layout, and the path inside of the track *)

(** Every variable read exists, and as many constraints are written as declared. *)
Theorem C103_all_reads_in_range : forall closed gs direction x, gs <> [] -> length x = mc_variables closed (length gs) ->
  (exists objective constraints, mc_fg closed gs direction x = Ok (objective, constraints) /\
     length constraints = mc_constraints closed (length gs)) /\
  exists c, mc_export closed gs x = Ok c /\ length (pa_points c) = length gs /\ length (pa_delta c) = mc_elements closed (length gs).
Proof.
  intros closed gs dir x Hgs Hx. assert (HN : (1 <= length gs)%nat) by (destruct gs; [congruence|simpl; lia]). split.
  - set (ds := mk_deltas x (mc_elements closed (length gs))). set (ps := mk_points x 0 gs).
    assert (Lp : length ps = length gs) by apply mk_points_length.
    assert (Ld : length ds = mc_elements closed (length gs)) by apply mk_deltas_length.
    destruct (nth_error_ex _ ps (length ps - 1)) as (p & Hp); [lia|].
    destruct (nth_error_ex _ ps 0) as (q & Hq); [lia|].
    assert (Hd : exists d, closed = true -> nth_error ds (length ds - 1) = Some d).
    { destruct closed; [|exists 0; discriminate]. destruct (nth_error_ex _ ds (length ds - 1)) as (d & Hd); [rewrite Ld; simpl; lia|].
      now exists d. }
    destruct Hd as (d & Hd). rewrite (mc_fg_eq closed gs dir x d p q Hx HN Hd (fun _ => Hp) (fun _ => Hq)).
    eexists _, _. split; [reflexivity|]. fold ds ps. rewrite app_length, mc_inner_length, Lp, Ld.
    unfold mc_constraints, mc_elements. destruct closed; simpl length; lia.
  - rewrite mc_export_eq by assumption. eexists. split; [reflexivity|]. cbn [pa_points pa_delta].
    rewrite mk_points_length, mk_deltas_length. auto.
Qed.

(** The start vector is the centreline of the circuit with its own angles and element lengths. *)
Theorem C103_start_is_the_centreline : forall closed L s gs, gs <> [] -> length s = length gs ->
  exists c, mc_export closed gs (mc_start closed L s gs) = Ok c /\
  (forall i g p, nth_error gs i = Some g -> nth_error (pa_points c) i = Some p ->
     pp_n p = 0 /\ pp_e p = ge_e g /\ pp_de p = ge_de g /\ pp_r p = ge_r g /\ pp_k p = curvature (ge_e g) (ge_de g)) /\
  (forall i a b, nth_error s i = Some a -> nth_error s (S i) = Some b -> nth_error (pa_delta c) i = Some (b - a)) /\
  (closed = true -> forall a, nth_error s (length s - 1) = Some a -> nth_error (pa_delta c) (length gs - 1) = Some (L - a)).
Proof.
  intros closed L s gs Hgs Hs. assert (HN : (1 <= length gs)%nat) by (destruct gs; [congruence|simpl; lia]).
  assert (H7 : forall g, length (mc_start_point g) = 7%nat) by reflexivity.
  assert (Hx : length (mc_start closed L s gs) = mc_variables closed (length gs)) by (apply vec_length; assumption).
  rewrite mc_export_eq by assumption. eexists. split; [reflexivity|]. cbn [pa_points pa_delta].
  assert (D : forall i, (i < mc_elements closed (length gs))%nat ->
    nth_error (mk_deltas (mc_start closed L s gs) (mc_elements closed (length gs))) i = Some (mc_ds L s i)).
  { intros i Hi. destruct (nth_error_ex _ (mk_deltas (mc_start closed L s gs) (mc_elements closed (length gs))) i) as (d & Hd).
    { now rewrite mk_deltas_length. }
    rewrite Hd. apply mk_deltas_nth in Hd. destruct Hd as [_ ->]. f_equal. apply nth_error_nth. unfold mc_start.
    now rewrite vec_nth_delta. }
  split; [|split].
  - intros i g p Hg Hp. apply mk_points_nth in Hp. destruct Hp as (g' & Hg' & ->). rewrite Hg in Hg'. injection Hg' as <-.
    assert (E : forall k, (k < 7)%nat -> nth (8 * i + k) (mc_start closed L s gs) 0 = nth k (mc_start_point g) 0).
    { intros k Hk. apply nth_error_nth. unfold mc_start. rewrite (vec_nth_point _ _ _ _ _ _ H7 HN i g k Hg Hk).
      apply nth_error_nth'. now rewrite H7. }
    unfold mk_point. rewrite Nat.add_0_l. rewrite !E by lia. cbn [nth mc_start_point pp_n pp_e pp_de pp_r pp_k].
    destruct g as [[rx ry rz] [e1 e2 e3] [d1 d2 d3] nl nr]. cbn [ge_r ge_e ge_de yaw pitch roll vx vy vz].
    rewrite !Rmult_0_l, !Rplus_0_r. repeat split.
  - intros i a b Ha Hb. assert (Hi : (S i < length s)%nat) by (apply nth_error_Some; congruence).
    rewrite D by (unfold mc_elements; destruct closed; lia). f_equal. unfold mc_ds.
    rewrite (proj2 (Nat.ltb_lt (S i) (length s)) Hi). now rewrite (nth_error_nth _ _ 0 Ha), (nth_error_nth _ _ 0 Hb).
  - intros -> a Ha. rewrite D by (unfold mc_elements; lia). f_equal. unfold mc_ds.
    destruct (Nat.ltb_spec (S (length gs - 1)) (length s)); [lia|]. now rewrite (last_nth_error _ _ 0 _ Ha).
Qed.

(** A vector inside of the bounds gives a path between the limits of the track, at the stated
    displacement from the centreline, with an angle to the road below 60 degrees and elements
    between 0.05 and 5 times those of the centreline. *)
Theorem C103_path_inside_track : forall closed L s gs x c, gs <> [] ->
  in_box (mc_lower closed L s gs) x (mc_upper closed L s gs) -> mc_export closed gs x = Ok c ->
  (forall i g p, nth_error gs i = Some g -> nth_error (pa_points c) i = Some p ->
     - ge_nl g <= pp_n p <= ge_nr g /\ pp_r p = coordinates (ge_r g) (ge_e g) (pp_n p) /\
     Rabs (yaw (pp_e p) - yaw (ge_e g)) <= PI / 3 /\ Rabs (pitch (pp_e p) - pitch (ge_e g)) <= PI / 6 /\
     Rabs (roll (pp_e p) - roll (ge_e g)) <= PI / 6) /\
  (forall i a b d, nth_error s i = Some a -> nth_error s (S i) = Some b -> nth_error (pa_delta c) i = Some d ->
     0.05 * (b - a) <= d <= 5 * (b - a)).
Proof.
  intros closed L s gs x c Hgs Hbox Hex. assert (HN : (1 <= length gs)%nat) by (destruct gs; [congruence|simpl; lia]).
  assert (H7 : forall g, length (mc_lower_point g) = 7%nat) by reflexivity.
  assert (H7' : forall g, length (mc_upper_point g) = 7%nat) by reflexivity.
  destruct Hbox as (L1 & L2 & B).
  assert (Hx : length x = mc_variables closed (length gs)) by (rewrite <- L1; apply vec_length; assumption).
  rewrite mc_export_eq in Hex by assumption. injection Hex as <-. cbn [pa_points pa_delta]. split.
  - intros i g p Hg Hp. apply mk_points_nth in Hp. destruct Hp as (g' & Hg' & ->). rewrite Hg in Hg'. injection Hg' as <-.
    assert (Hi : (i < length gs)%nat) by (apply nth_error_Some; congruence).
    assert (E : forall k, (k < 7)%nat -> nth k (mc_lower_point g) 0 <= nth (8 * i + k) x 0 <= nth k (mc_upper_point g) 0).
    { intros k Hk. apply (B (8 * i + k)%nat).
      - unfold mc_lower. rewrite (vec_nth_point _ _ _ _ _ _ H7 HN i g k Hg Hk). apply nth_error_nth'. now rewrite H7.
      - apply nth_error_nth'. rewrite Hx. unfold mc_variables, mc_elements, in_end. destruct closed; lia.
      - unfold mc_upper. rewrite (vec_nth_point _ _ _ _ _ _ H7' HN i g k Hg Hk). apply nth_error_nth'. now rewrite H7'. }
    pose proof (E 0%nat ltac:(lia)) as E0. pose proof (E 1%nat ltac:(lia)) as E1. pose proof (E 2%nat ltac:(lia)) as E2.
    pose proof (E 3%nat ltac:(lia)) as E3.
    unfold mk_point. rewrite Nat.add_0_l. cbn [nth mc_lower_point mc_upper_point] in *. unfold DEG in *.
    cbn [pp_n pp_e pp_de pp_r yaw pitch roll]. set (v0 := nth (8 * i + 0) x 0) in *.
    split; [exact E0|]. split; [unfold coordinates; f_equal; ring|].
    repeat split; apply Rabs_le; lra.
  - intros i a b d Ha Hb Hd. apply mk_deltas_nth in Hd. destruct Hd as [Hi ->].
    assert (Hs : (S i < length s)%nat) by (apply nth_error_Some; congruence).
    assert (Eds : mc_ds L s i = b - a).
    { unfold mc_ds. rewrite (proj2 (Nat.ltb_lt (S i) (length s)) Hs). now rewrite (nth_error_nth _ _ 0 Ha), (nth_error_nth _ _ 0 Hb). }
    rewrite <- Eds. apply (B (8 * i + 7)%nat).
    + unfold mc_lower. now rewrite vec_nth_delta.
    + apply nth_error_nth'. rewrite Hx. unfold mc_variables, in_end, mc_elements in *. destruct closed; lia.
    + unfold mc_upper. now rewrite vec_nth_delta.
Qed.
Example C103_example : let g := Geometry (V 0 0 0) (Euler 0 0 0) (Euler 0 0 0) 5 5 in
  in_box (mc_lower false 1 [0; 1] [g; g]) (mc_start false 1 [0; 1] [g; g]) (mc_upper false 1 [0; 1] [g; g]).
Proof.
  cbv zeta. assert (P := PI_RGT_0). split; [reflexivity|]. split; [reflexivity|]. intros i a v b Ha Hv Hb.
  do 15 (destruct i as [|i]; [cbn in Ha, Hv, Hb; injection Ha as <-; injection Hv as <-; injection Hb as <-; unfold DEG, mc_ds; cbn; lra|]).
  destruct i; discriminate.
Qed.

(** Nothing checks that the arclengths increase: an accepted vector that goes back gives bounds
    that no path can meet. *)
Theorem C103_decreasing_arclength_refuted : forall closed L s gs x i a b, length s = length gs ->
  nth_error s i = Some a -> nth_error s (S i) = Some b -> b < a ->
  ~ in_box (mc_lower closed L s gs) x (mc_upper closed L s gs).
Proof.
  intros closed L s gs x i a b Hs Ha Hb Hlt Hbox.
  assert (Hi : (S i < length s)%nat) by (apply nth_error_Some; congruence).
  assert (Hgs : gs <> []) by (destruct gs; [simpl in *; lia|discriminate]).
  assert (HN : (1 <= length gs)%nat) by lia.
  assert (Hx : length x = mc_variables closed (length gs)).
  { destruct Hbox as (L1 & _ & _). rewrite <- L1. apply vec_length; [reflexivity|assumption]. }
  destruct (proj2 (C103_all_reads_in_range closed gs 0 x Hgs Hx)) as (c & Hc & _ & Ld).
  destruct (nth_error_ex _ (pa_delta c) i) as (d & Hd). { rewrite Ld. unfold mc_elements. destruct closed; lia. }
  pose proof (proj2 (C103_path_inside_track closed L s gs x c Hgs Hbox Hc) i a b d Ha Hb Hd). lra.
Qed.
Example C103_decreasing_example : check_arclength true 100 [0; 60; 40] = Ok [0; 60; 40].
Proof.
  unfold check_arclength. cbn [last]. rewrite Rabs_R0. destruct (Rlt_dec _ _); [lra|]. destruct (Rlt_dec _ _); [lra|reflexivity].
Qed.

(** ** C104: the path follows its angles *)

Lemma defects_plan tol d turn p q : Forall (fun e => Rabs e <= tol) (mc_defects d turn p q) -> plan_element tol d turn p q /\
  Rabs (vz (pp_r q) - vz (pp_r p) - 0.5 * d * (sin (pitch (pp_e q)) + sin (pitch (pp_e p)))) <= tol.
Proof.
  unfold mc_defects. intro H.
  repeat match goal with H : Forall _ (_ :: _) |- _ => apply Forall_cons_iff in H; destruct H as [? H] end.
  unfold plan_element, integrates, tangent. cbn [vx vy vz].
  split; [|assumption].
  repeat split; match goal with |- Rabs ?t <= _ =>
    match goal with H : Rabs ?s <= _ |- _ => replace t with s by lra; exact H end end.
Qed.

(** Constraints met up to [tol] give a path that, seen from above, follows its heading, with
    angles that follow their rates, and that closes after one turn on a closed circuit; with no
    pitch, its height follows too. *)
Theorem C104_solution_is_a_path_partial : forall closed gs direction x objective constraints c tol, gs <> [] ->
  length x = mc_variables closed (length gs) -> mc_fg closed gs direction x = Ok (objective, constraints) ->
  Forall (fun e => Rabs e <= tol) constraints -> mc_export closed gs x = Ok c ->
  every_element (fun d p q => plan_element tol d 0 p q /\
     (pitch (pp_e p) = 0 -> pitch (pp_e q) = 0 -> height_element tol d p q)) c /\
  (closed = true -> closing_element (fun d p q => plan_element tol d (2 * PI * direction) p q /\
     (pitch (pp_e p) = 0 -> pitch (pp_e q) = 0 -> height_element tol d p q)) c).
Proof.
  intros closed gs dir x obj cons c tol Hgs Hx Hfg Hc Hex.
  assert (HN : (1 <= length gs)%nat) by (destruct gs; [congruence|simpl; lia]).
  assert (G : forall d turn p q, Forall (fun e => Rabs e <= tol) (mc_defects d turn p q) -> plan_element tol d turn p q /\
     (pitch (pp_e p) = 0 -> pitch (pp_e q) = 0 -> height_element tol d p q)).
  { intros d turn p q H. apply defects_plan in H. destruct H as [H1 H2]. split; [exact H1|]. intros Ep Eq.
    unfold height_element, integrates, tangent. cbn [vz]. rewrite Ep, Eq in *. rewrite sin_0 in *.
    replace (vz (pp_r q) - vz (pp_r p) - d / 2 * (- 0 + - 0)) with (vz (pp_r q) - vz (pp_r p) - 0.5 * d * (0 + 0)) by lra. exact H2. }
  set (ds := mk_deltas x (mc_elements closed (length gs))) in *. set (ps := mk_points x 0 gs) in *.
  assert (Lp : length ps = length gs) by apply mk_points_length.
  assert (Ld : length ds = mc_elements closed (length gs)) by apply mk_deltas_length.
  destruct (nth_error_ex _ ps (length ps - 1)) as (p & Hp); [lia|].
  destruct (nth_error_ex _ ps 0) as (q & Hq); [lia|].
  assert (Hd : exists d, closed = true -> nth_error ds (length ds - 1) = Some d).
  { destruct closed; [|exists 0; discriminate]. destruct (nth_error_ex _ ds (length ds - 1)) as (d & Hd); [rewrite Ld; simpl; lia|].
    now exists d. }
  destruct Hd as (d & Hd). rewrite (mc_fg_eq closed gs dir x d p q Hx HN Hd (fun _ => Hp) (fun _ => Hq)) in Hfg.
  injection Hfg as _ <-. fold ds ps in Hc. rewrite mc_export_eq in Hex by assumption. injection Hex as <-. fold ds ps.
  apply Forall_app in Hc. destruct Hc as [Hin Hcl]. split.
  - intros i d' p' q' Hd' Hp' Hq'. cbn [pa_delta pa_points] in *. apply G.
    rewrite Forall_forall in Hin |- *. intros e He. apply Hin. exact (mc_inner_defects ds ps i d' p' q' Hd' Hp' Hq' e He).
  - intros E d' p' q' Hd' Hp' Hq'. cbn [pa_delta pa_points] in *. rewrite (Hd E) in Hd'. rewrite Hp in Hp'. rewrite Hq in Hq'.
    injection Hd' as <-. injection Hp' as <-. injection Hq' as <-. rewrite E in Hcl. now apply G.
Qed.
Example C104_example : exists objective constraints,
  let g0 := Geometry (V 0 0 0) (Euler 0 0 0) (Euler 0 0 0) 5 5 in let g1 := Geometry (V 2 0 0) (Euler 0 0 0) (Euler 0 0 0) 5 5 in
  mc_fg false [g0; g1] 0 (mc_start false 2 [0; 2] [g0; g1]) = Ok (objective, constraints) /\
  length constraints = 6%nat /\ Forall (fun e => Rabs e <= 0) constraints.
Proof.
  eexists _, _. cbv zeta. split; [reflexivity|]. split; [reflexivity|].
  unfold mc_defects, mc_ds. cbn. rewrite sin_0, cos_0.
  repeat apply Forall_cons; try apply Forall_nil;
  match goal with |- Rabs ?t <= 0 => replace t with 0; [rewrite Rabs_R0; lra|] end; lra.
Qed.

(** The height is integrated with the opposite sign of the road's tangent: a path that both
    follows the tangent and meets the constraint cannot climb. *)
Theorem C104_climb_refuted : forall d turn p q, height_element 0 d p q ->
  Forall (fun e => e = 0) (mc_defects d turn p q) -> d * (sin (pitch (pp_e p)) + sin (pitch (pp_e q))) = 0.
Proof.
  intros d turn p q H F. unfold mc_defects in F.
  assert (F3 := proj1 (Forall_forall _ _) F _ (or_intror (or_intror (or_introl eq_refl)))).
  unfold height_element, integrates, tangent in H. cbn [vz] in H. apply Rabs_le_both in H. lra.
Qed.
(** In particular the centreline of a straight road at a constant slope, which follows the
    tangent, is not accepted. *)
Theorem C104_slope_refuted : exists gs x objective constraints c,
  mc_fg false gs 0 x = Ok (objective, constraints) /\ mc_export false gs x = Ok c /\
  every_element (fun d p q => plan_element 0 d 0 p q /\ height_element 0 d p q) c /\
  ~ Forall (fun e => Rabs e <= 0.5) constraints.
Proof.
  set (e := Euler 0 (PI/6) 0). set (z := Euler 0 0 0).
  exists [Geometry (V 0 0 0) e z 5 5; Geometry (V (2 * cos (PI/6)) 0 (-1)) e z 5 5],
    (mc_start false 2 [0; 2] [Geometry (V 0 0 0) e z 5 5; Geometry (V (2 * cos (PI/6)) 0 (-1)) e z 5 5]).
  eexists _, _, _. split; [reflexivity|]. split; [reflexivity|]. split.
  - intros i d p q Hd Hp Hq. destruct i as [|i]; [|destruct i; discriminate].
    cbn in Hd, Hp, Hq. injection Hd as <-. injection Hp as <-. injection Hq as <-.
    unfold plan_element, height_element, integrates, tangent, mc_ds. cbn.
    rewrite sin_PI6, cos_0, sin_0.
    repeat split; match goal with |- Rabs ?t <= 0 => replace t with 0; [rewrite Rabs_R0; lra|field] end.
  - intro F. unfold mc_defects in F.
    assert (F3 := proj1 (Forall_forall _ _) F _ (or_intror (or_intror (or_introl eq_refl)))). cbn in F3.
    unfold mc_ds in F3. cbn in F3. rewrite !sin_PI6 in F3. apply Rabs_le_both in F3. lra.
Qed.

(** ** C105: the minimised quantity *)

Lemma pp_k_is x i g : pp_k (mk_point x i g) = curvature (pp_e (mk_point x i g)) (pp_de (mk_point x i g)).
Proof. reflexivity. Qed.
Lemma inner_integral ds : forall ps, Forall (fun p => pp_k p = curvature (pp_e p) (pp_de p)) ps ->
  fst (mc_inner ds ps) = path_integral curvature2 ds ps.
Proof.
  induction ds as [|d ds IH]; intros [|p ps] H; try reflexivity. destruct ps as [|q ps]; [reflexivity|].
  cbn [mc_inner path_integral fst]. rewrite IH by (now apply Forall_cons_iff in H).
  apply Forall_cons_iff in H. destruct H as [Hp H]. apply Forall_cons_iff in H. destruct H as [Hq _].
  unfold mc_cost, curvature2, dot. rewrite Hp, Hq. lra.
Qed.
Lemma path_integral_closed f : forall ps ds q d, length ds = length ps -> nth_error ds (length ds - 1) = Some d -> 
  path_integral f ds (ps ++ [q]) = path_integral f ds ps + d / 2 * (f (last ps q) + f q).
Proof.
  induction ps as [|p ps IH]; intros [|d0 ds] q d H Hd; try discriminate.
  simpl in H. destruct ps as [|p' ps].
  - destruct ds; [|discriminate]. simpl in Hd. injection Hd as <-. simpl. lra.
  - destruct ds as [|d1 ds]; [discriminate|]. cbn [app]. cbn [path_integral].
    specialize (IH (d1 :: ds) q d ltac:(simpl in *; lia)). cbn [app] in IH. cbn [path_integral] in IH.
    rewrite IH. 2:{ simpl in *. now rewrite Nat.sub_0_r in *. }
    replace (last (p :: p' :: ps) q) with (last (p' :: ps) q) by reflexivity. lra.
Qed.

(** On an open circuit the objective is the trapezoidal integral of the squared curvature along
    the path; so it is on a closed circuit where the first and last points are flat. *)
Theorem C105_objective_partial : forall closed gs direction x objective constraints c first final, gs <> [] ->
  length x = mc_variables closed (length gs) -> mc_fg closed gs direction x = Ok (objective, constraints) ->
  mc_export closed gs x = Ok c -> nth_error (pa_points c) 0 = Some first ->
  nth_error (pa_points c) (length (pa_points c) - 1) = Some final ->
  closed = false \/ (flat first /\ flat final) ->
  objective = path_integral curvature2 (pa_delta c) (if closed then pa_points c ++ [first] else pa_points c).
Proof.
  intros closed gs dir x obj cons c first final Hgs Hx Hfg Hex Hf Hl Hcase.
  assert (HN : (1 <= length gs)%nat) by (destruct gs; [congruence|simpl; lia]).
  rewrite mc_export_eq in Hex by assumption. injection Hex as <-. cbn [pa_points pa_delta] in *.
  set (ds := mk_deltas x (mc_elements closed (length gs))) in *. set (ps := mk_points x 0 gs) in *.
  assert (Lp : length ps = length gs) by apply mk_points_length.
  assert (Ld : length ds = mc_elements closed (length gs)) by apply mk_deltas_length.
  assert (Hd : exists d, closed = true -> nth_error ds (length ds - 1) = Some d).
  { destruct closed; [|exists 0; discriminate]. destruct (nth_error_ex _ ds (length ds - 1)) as (d & Hd); [rewrite Ld; simpl; lia|].
    now exists d. }
  destruct Hd as (d & Hd). rewrite (mc_fg_eq closed gs dir x d final first Hx HN Hd (fun _ => Hl) (fun _ => Hf)) in Hfg.
  injection Hfg as <- _. fold ds ps.
  assert (K : Forall (fun p => pp_k p = curvature (pp_e p) (pp_de p)) ps).
  { apply Forall_forall. intros p Hp. apply In_nth_error in Hp. destruct Hp as [i Hp]. apply mk_points_nth in Hp.
    destruct Hp as (g & _ & ->). apply pp_k_is. }
  rewrite (inner_integral ds ps K). destruct closed; [|lra].
  destruct Hcase as [Hc|[F1 F2]]; [discriminate|].
  rewrite (path_integral_closed curvature2 ps ds first d) by (try (now apply Hd); rewrite Ld, Lp; reflexivity).
  rewrite (last_nth_error _ ps first final Hl). f_equal. unfold mc_closing_cost, curvature2, curvature, dot.
  destruct F1 as (-> & -> & -> & ->), F2 as (-> & -> & -> & ->). cbn [vx vy vz]. rewrite sin_0, cos_0. lra.
Qed.

(** The closing element of a closed circuit counts the yaw rate only: with the path rolling or
    pitching there, its curvature is free. *)
Theorem C105_closing_element_refuted : exists gs x objective constraints c first,
  length x = mc_variables true (length gs) /\ mc_fg true gs 1 x = Ok (objective, constraints) /\
  mc_export true gs x = Ok c /\ nth_error (pa_points c) 0 = Some first /\
  objective = 0 /\ path_integral curvature2 (pa_delta c) (pa_points c ++ [first]) = 1.
Proof.
  exists [Geometry (V 0 0 0) (Euler 0 0 0) (Euler 0 0 0) 5 5], [0; 0; 0; 0; 0; 1; 0; 1].
  eexists _, _, _, _. split; [reflexivity|]. split; [reflexivity|]. split; [reflexivity|]. split; [reflexivity|].
  split.
  - unfold mc_closing_cost. cbn. lra.
  - unfold curvature2, curvature, dot. cbn. rewrite sin_0, cos_0. lra.
Qed.

(** ** C106: input, written lists, path on a track by arcs *)

(** An accepted arclength vector starts at (almost) zero or later and ends inside of the track. *)
Theorem C106_accepted_arclength : forall closed L s s', check_arclength closed L s = Ok s' ->
  length s' = length s /\ (forall i, (1 <= i)%nat -> nth_error s' i = nth_error s i) /\
  (closed = true -> nth_error s' 0 = Some 0 /\ ((1 < length s)%nat -> last s' 0 <= L - 1e-10)) /\
  (closed = false -> s' = s /\ last s' 0 <= L /\ forall a, nth_error s 0 = Some a -> - 1e-12 <= a).
Proof.
  intros closed L s s' H. destruct s as [|s0 s]; [discriminate|]. unfold check_arclength in H. destruct closed.
  - destruct (Rlt_dec _ _); [discriminate|]. destruct (Rlt_dec _ _) as [?|Hl]; [discriminate|]. injection H as <-.
    split; [reflexivity|]. split; [intros [|i] Hi; [lia|reflexivity]|]. split; [|discriminate]. intros _.
    split; [reflexivity|]. intro Hlen. destruct s as [|s1 s]; [simpl in Hlen; lia|].
    replace (last (0 :: s1 :: s) 0) with (last (s0 :: s1 :: s) 0) by reflexivity. lra.
  - destruct (Rlt_dec _ _); [discriminate|]. destruct (Rlt_dec _ _) as [?|Hl]; [discriminate|]. injection H as <-.
    split; [reflexivity|]. split; [reflexivity|]. split; [discriminate|]. intros _. split; [reflexivity|]. split; [lra|].
    intros a E. simpl in E. injection E as <-. lra.
Qed.
Example C106_example : check_arclength false 100 [0; 60; 100] = Ok [0; 60; 100].
Proof. unfold check_arclength. cbn [last]. destruct (Rlt_dec _ _); [lra|]. destruct (Rlt_dec _ _); [lra|reflexivity]. Qed.
Theorem C106_empty_arclength_refuted : forall closed L, check_arclength closed L [] = UB.
Proof. reflexivity. Qed.

(** Each list of the file holds the values of the path, in order; writing the path found on a
    track by arcs, which fills none of these lists, runs out of them. *)
Theorem C106_written_list_partial : forall A (l : list A), l <> [] -> write_list l = Ok l.
Proof.
  intros A l H. destruct l as [|a l]; [congruence|]. unfold write_list.
  set (m := a :: l) in *. assert (Lm : (1 <= length m)%nat) by (simpl; lia). clearbody m.
  destruct (nth_error_ex _ m (length m - 1)) as (b & Hb); [lia|].
  assert (G : all_ok (map (rd m) (seq 0 (length m - 1))) = Ok (firstn (length m - 1) m)).
  { assert (G : forall n k, (k + n <= length m)%nat -> all_ok (map (rd m) (seq k n)) = Ok (firstn n (skipn k m))).
    { induction n as [|n IH]; intros k Hk; [reflexivity|]. cbn [seq map all_ok].
      destruct (nth_error_ex _ m k ltac:(lia)) as (v & Hv). rewrite (rd_some _ _ _ _ Hv). cbn [bind].
      rewrite IH by lia. cbn [bind]. f_equal.
      assert (E : skipn k m = v :: skipn (S k) m).
      { clear - Hv. revert m Hv. induction k as [|k IH]; intros [|x m] Hv; try discriminate; simpl in *.
        - congruence.
        - now rewrite (IH m Hv). }
      rewrite E. reflexivity. }
    rewrite G by lia. reflexivity. }
  rewrite G. cbn [bind]. rewrite (back_last _ _ _ Hb). cbn [bind]. f_equal.
  transitivity (firstn (length m - 1) m ++ skipn (length m - 1) m); [|apply firstn_skipn]. f_equal.
  assert (Hs : nth_error (skipn (length m - 1) m) 0 = Some b).
  { clear - Hb. revert Hb. generalize (length m - 1)%nat. induction m as [|x m IH]; intros [|n] H; try discriminate; simpl in *; auto. }
  assert (Ls : length (skipn (length m - 1) m) = 1%nat) by (rewrite skipn_length; lia).
  destruct (skipn (length m - 1) m) as [|y [|? ?]]; try discriminate. simpl in Hs. congruence.
Qed.
Theorem C106_arcs_path_file_refuted : forall A, @write_list A [] = UB.
Proof. reflexivity. Qed.

(** On a track by arcs, with two or more points, the objective is the sum over the points of the
    squared curvature with the central differences of the displacement on the ring. *)
Theorem C106_arcs_objective_partial : forall k2 L N w, (2 <= N)%nat -> length w = N -> L <> 0 ->
  let h := L / INR N in let v i := nth i w 0 in
  arcs_fg k2 L N w = Ok (fold_right Rplus 0 (map (fun i =>
    k2 (INR i * h) (v i) (ring_d1 N h v i) (ring_d2 N h v i) * h) (seq 0 N))).
Proof.
  intros k2 L N w HN Hw HL h v.
  assert (Hn : INR N <> 0) by (apply not_0_INR; lia).
  assert (Hh : h <> 0) by (unfold h, Rdiv; apply Rmult_integral_contrapositive_currified; [assumption|now apply Rinv_neq_0_compat]).
  assert (St : forall a c b, ((b - a) * 0.5 * (1 / h), (b + a - 2 * c) * (1 / h) * (1 / h)) = ((b - a) / (2 * h), (b + a - 2 * c) / (h * h))).
  { intros. replace 0.5 with (1/2) by lra. f_equal; field; assumption. }
  assert (D : forall i, (i < N)%nat -> arcs_dw L N w i = Ok (ring_d1 N h v i, ring_d2 N h v i)).
  { intros i Hi. unfold arcs_dw. fold h. unfold ring_d1, ring_d2, ring_next, ring_prev.
    assert (Rv : forall j, (j < N)%nat -> rd w j = Ok (v j)) by (intros; apply rd_some, nth_error_nth'; lia).
    destruct (Nat.eqb_spec i 0) as [->|H0].
    - rewrite (Rv 1%nat), (Rv (N - 1)%nat), (Rv 0%nat) by lia. cbn [bind]. rewrite St.
      destruct (Nat.eqb_spec 1 N); [lia|]. reflexivity.
    - destruct i as [|i]; [lia|]. destruct (Nat.eqb_spec (S i) (N - 1)) as [E|E].
      + rewrite (Rv 0%nat), (Rv (N - 2)%nat), (Rv (N - 1)%nat) by lia. cbn [bind]. rewrite St.
        replace (S (S i) =? N)%nat with true by (symmetry; apply Nat.eqb_eq; lia).
        replace (N - 2)%nat with i by lia. now rewrite <- E.
      + rewrite (Rv (S i + 1)%nat), (Rv (S i - 1)%nat), (Rv (S i)) by lia. cbn [bind]. rewrite St.
        destruct (Nat.eqb_spec (S (S i)) N); [lia|]. now replace (S i + 1)%nat with (S (S i)) by lia; replace (S i - 1)%nat with i by lia. }
  unfold arcs_fg. destruct N as [|N']; [lia|]. set (N := S N') in *. fold h. unfold for_range. rewrite Nat.sub_0_r.
  assert (G : forall n k acc, (k + n <= N)%nat ->
    loop n k (fun i acc => bind (arcs_dw L N w i) (fun d => bind (rd w i) (fun wi => Ok (acc + k2 (INR i * h) wi (fst d) (snd d) * h)))) acc
    = Ok (acc + fold_right Rplus 0 (map (fun i => k2 (INR i * h) (v i) (ring_d1 N h v i) (ring_d2 N h v i) * h) (seq k n)))).
  { induction n as [|n IH]; intros k acc Hk; [simpl; now rewrite Rplus_0_r|]. cbn [loop]. rewrite D by lia. cbn [bind].
    rewrite (rd_some _ w k (v k)) by (apply nth_error_nth'; lia). cbn [bind fst snd]. rewrite IH by lia.
    cbn [seq map fold_right]. f_equal. lra. }
  rewrite (G N 0%nat 0) by lia. now rewrite Rplus_0_l.
Qed.
Example C106_arcs_example : exists o, arcs_fg (fun _ _ _ d2 => d2) 2 2 [1; 3] = Ok o.
Proof. eexists. reflexivity. Qed.
Theorem C106_arcs_few_points_refuted : forall k2 L N w, (N < 2)%nat -> length w = N -> arcs_fg k2 L N w = UB.
Proof.
  intros k2 L N w HN Hw. destruct N as [|[|N]]; [reflexivity| |lia].
  destruct w as [|a [|? ?]]; try discriminate. reflexivity.
Qed.

Print Assumptions C103_all_reads_in_range.
Print Assumptions C103_start_is_the_centreline.
Print Assumptions C103_path_inside_track.
Print Assumptions C103_decreasing_arclength_refuted.
Print Assumptions C104_solution_is_a_path_partial.
Print Assumptions C104_climb_refuted.
Print Assumptions C104_slope_refuted.
Print Assumptions C105_objective_partial.
Print Assumptions C105_closing_element_refuted.
Print Assumptions C106_accepted_arclength.
Print Assumptions C106_empty_arclength_refuted.
Print Assumptions C106_written_list_partial.
Print Assumptions C106_arcs_path_file_refuted.
Print Assumptions C106_arcs_objective_partial.
Print Assumptions C106_arcs_few_points_refuted.
