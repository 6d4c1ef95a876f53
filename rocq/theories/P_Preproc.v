(** The circuit preprocessor. *)
From Coq Require Import Reals Lra Lia Bool Arith.
From Coq Require Import List.
From Verif Require Import M_Controls M_Laptime M_Vec M_Road S_Road L_Road M_Errors M_Preproc S_Preproc L_Preproc.
Import ListNotations.
Local Open Scope R_scope.

(** ** C97: the solution is a road *)

(** With vectors of the sizes the preprocessor creates, no element outside of a vector is read,
    and as many constraints are written as were declared. *)
Theorem C97_all_reads_in_range : forall closest closed el w N ds last_ds left_curve right_curve center_curve direction x,
  length x = n_variables el N -> (1 <= N)%nat -> S (length ds) = N -> left_curve <> [] -> right_curve <> [] ->
  let lengths := if closed : bool then ds ++ [last_ds] else ds in
  (exists objective constraints,
     fg closest closed el w (length lengths) N lengths left_curve right_curve center_curve direction x = Ok (objective, constraints) /\
     length constraints = n_constraints closed el (length lengths)) /\
  exists c, export_circuit closed el N ds last_ds x = Ok c /\ length (co_s c) = N /\ length (co_points c) = N.
Proof.
  intros cl closed el w N ds ld lc rc cc dir x Hx HN Hds Hl Hr lengths. split.
  - assert (L : (0 < length lc)%nat) by (destruct lc; [congruence|simpl; lia]).
    assert (L' : (0 < length rc)%nat) by (destruct rc; [congruence|simpl; lia]).
    destruct (nth_error_ex _ lc 0 L) as (lf & Hlf). destruct (nth_error_ex _ rc 0 L') as (rf & Hrf).
    destruct (nth_error_ex _ lc (length lc - 1)) as (lb & Hlb); [lia|].
    destruct (nth_error_ex _ rc (length rc - 1)) as (rb & Hrb); [lia|].
    pose proof (fg_eq cl closed el w N ds ld lc rc cc dir x lf rf lb rb Hx HN Hds Hlf Hrf Hlb Hrb) as E.
    eexists _, _. split; [exact E|].
    rewrite !app_length.
    assert (F : forall l, length (flat_map (inner_defects cl el N ds lc rc cc x) l) = (n_states el * length l)%nat).
    { induction l as [|a l IH]; simpl; [lia|]. rewrite app_length, IH. unfold inner_defects. rewrite defects_length. lia. }
    rewrite F, seq_length. unfold n_constraints, lengths. destruct closed; simpl.
    + rewrite defects_length, app_length. simpl. nia.
    + replace (N - 1)%nat with (length ds) by lia. lia.
  - rewrite export_eq by assumption. eexists; split; [reflexivity|]. simpl.
    rewrite arclengths_length, map_length, points_of_length. auto.
Qed.

(** Whatever the solver returns with its constraints met up to [tol], the exported circuit is a
    road up to the same tolerance: consecutive points follow the tangent, the angles their rates,
    and so on; a closed circuit closes after one turn in its direction; the first point is on
    the start line and, on an open circuit, the last one on the finish line. *)
Theorem C97_solution_is_a_road : forall closest closed el w N ds last_ds left_curve right_curve center_curve direction x
    objective constraints tol c,
  length x = n_variables el N -> (1 <= N)%nat -> S (length ds) = N ->
  (forall l r, nth_error left_curve 0 = Some l -> nth_error right_curve 0 = Some r -> dot (vsub l r) (vsub l r) <> 0) ->
  (forall l r, nth_error left_curve (length left_curve - 1) = Some l ->
     nth_error right_curve (length right_curve - 1) = Some r -> dot (vsub l r) (vsub l r) <> 0) ->
  left_curve <> [] -> right_curve <> [] ->
  let lengths := if closed : bool then ds ++ [last_ds] else ds in
  fg closest closed el w (length lengths) N lengths left_curve right_curve center_curve direction x = Ok (objective, constraints) ->
  Forall (fun e => Rabs e <= tol) constraints ->
  export_circuit closed el N ds last_ds x = Ok c ->
  is_road tol closed direction c /\ starts_on_line tol closed left_curve right_curve c.
Proof.
  intros cl closed el w N ds ld lc rc cc dir x obj cons tol c Hx HN Hds Hw Hw' Hl Hr lengths Hfg Hc Hex.
  assert (L : (0 < length lc)%nat) by (destruct lc; [congruence|simpl; lia]).
  assert (L' : (0 < length rc)%nat) by (destruct rc; [congruence|simpl; lia]).
  destruct (nth_error_ex _ lc 0 L) as (lf & Hlf). destruct (nth_error_ex _ rc 0 L') as (rf & Hrf).
  destruct (nth_error_ex _ lc (length lc - 1)) as (lb & Hlb); [lia|].
  destruct (nth_error_ex _ rc (length rc - 1)) as (rb & Hrb); [lia|].
  pose proof (fg_eq cl closed el w N ds ld lc rc cc dir x lf rf lb rb Hx HN Hds Hlf Hrf Hlb Hrb) as E.
  unfold all_ds in E. fold lengths in E. rewrite E in Hfg. injection Hfg as _ <-.
  rewrite export_eq in Hex by assumption. injection Hex as <-.
  apply Forall_app in Hc. destruct Hc as [Hin Hc]. apply Forall_app in Hc. destruct Hc as [Hcl Hc].
  apply Forall_cons_iff in Hc. destruct Hc as [Hst Hfi].
  assert (Ht : 0 <= tol).
  { pose proof (Rabs_pos (line_constraint el lf rf (nq (nd cl el N lc rc cc x 0)))). lra. }
  split; [split|split]; cbn [co_points co_s co_length].
  - intros i p n a b Hp Hn Ha Hb.
    apply export_points_nth in Hp, Hn. destruct Hp as [Hi ->], Hn as [Hi' ->].
    rewrite (arclengths_step _ _ _ _ _ _ Ha Hb).
    assert (Hd : Forall (fun e => Rabs e <= tol) (inner_defects cl el N ds lc rc cc x (S i))).
    { rewrite Forall_forall in Hin |- *. intros e He. apply Hin, in_flat_map. exists (S i). split; [apply in_seq; lia|exact He]. }
    unfold inner_defects in Hd. replace (S i - 1)%nat with i in Hd by lia.
    destruct (nd_is cl el N lc rc cc x i Hi) as (a1 & b1 & c1 & E1).
    destruct (nd_is cl el N lc rc cc x (S i) Hi') as (a2 & b2 & c2 & E2).
    rewrite E1, E2 in Hd. apply defects_road in Hd; [|exact Ht].
    now rewrite <- !surjective_pairing in Hd.
  - intros -> p n a Hp Hn Ha.
    apply export_points_nth in Hp, Hn. destruct Hp as [Hi ->], Hn as [Hi' ->].
    rewrite map_length, points_of_length in *.
    rewrite (last_nth_error _ _ 0 _ Ha). replace (a + ld * the_factor x - a) with (the_factor x * ld) by lra.
    destruct (nd_is cl el N lc rc cc x (N - 1) Hi) as (a1 & b1 & c1 & E1).
    destruct (nd_is cl el N lc rc cc x 0 Hi') as (a2 & b2 & c2 & E2).
    rewrite E1, E2 in Hcl. apply defects_road in Hcl; [|exact Ht].
    now rewrite <- !surjective_pairing in Hcl.
  - intros l r p Hl0 Hr0 Hp. apply export_points_nth in Hp. destruct Hp as [Hi ->].
    rewrite Hlf in Hl0. rewrite Hrf in Hr0. injection Hl0 as <-. injection Hr0 as <-.
    destruct (nd_is cl el N lc rc cc x 0 Hi) as (a1 & b1 & c1 & E1). rewrite E1 in Hst.
    apply line_near in Hst; [exact Hst|]. now apply Hw.
  - intros -> l r p Hl0 Hr0 Hp. apply export_points_nth in Hp. destruct Hp as [Hi ->].
    rewrite map_length, points_of_length in *.
    rewrite Hlb in Hl0. rewrite Hrb in Hr0. injection Hl0 as <-. injection Hr0 as <-.
    destruct (nd_is cl el N lc rc cc x (N - 1) Hi) as (a1 & b1 & c1 & E1). rewrite E1 in Hfi.
    apply Forall_inv in Hfi. apply line_near in Hfi; [exact Hfi|]. now apply Hw'.
Qed.

(** The boundaries of the returned circuit are its distances to the limits away from the
    centreline, across the road and banked with it: left to the left, right to the right (the
    vertical axis points down). *)
Theorem C97_boundaries : forall closed el N ds last_ds x c p,
  length x = n_variables el N -> (1 <= N)%nat -> export_circuit closed el N ds last_ds x = Ok c -> In p (co_points c) ->
  exists across down, right_handed (tangent (tp_angles p)) across down /\
    vz across = cos (pitch (tp_angles p)) * sin (roll (tp_angles p)) /\
    vz down = cos (pitch (tp_angles p)) * cos (roll (tp_angles p)) /\
    tp_left p = vadd (tp_center p) (vscale (- tp_nl p) across) /\
    tp_right p = vadd (tp_center p) (vscale (tp_nr p) across).
Proof.
  intros closed el N ds ld x c p Hx HN Hex Hp. rewrite export_eq in Hex by assumption. injection Hex as <-.
  cbn [co_points] in Hp. apply in_map_iff in Hp. destruct Hp as ([q u] & <- & _).
  exists (normal (tp_angles (export_point el (q, u)))), (binormal (tp_angles (export_point el (q, u)))).
  split; [apply frame_right_handed|].
  unfold export_point, get_coordinates, st_euler, normal, binormal, coordinates, coordinates_flat, vadd, vscale;
    destruct el; cbn [tp_left tp_right tp_center tp_angles tp_nl tp_nr fst snd vx vy vz yaw pitch roll];
    (split; [reflexivity|]); (split; [reflexivity|]);
    rewrite ?sin_0, ?cos_0; split; apply vec_eq; cbn [vx vy vz]; unfold normal; cbn [vx vy vz yaw pitch roll]; ring.
Qed.

(** A closed circuit of four points, round a square, that meets every constraint exactly. *)
Definition round_square : list R :=
  [1;
   0; 0; 0; PI/4; 5; 5; 0; 0; 0;
   1; 1; PI/2; PI/4; 5; 5; 0; 0; 0;
   0; 2; PI; PI/4; 5; 5; 0; 0; 0;
   -1; 1; 3*(PI/2); PI/4; 5; 5; 0; 0; 0].
Example C97_example : exists objective constraints,
  fg (fun _ _ _ _ => (0, (0, 0)%nat)) true false (Weights 1 1 1 1 1 1 1 1 1) 4 4 [2; 2; 2; 2]
     [V 0 (-5) 0] [V 0 5 0] [V 0 0 0] 1 round_square = Ok (objective, constraints) /\
  length round_square = n_variables false 4 /\ length constraints = 25%nat /\
  Forall (fun e => Rabs e <= 0) constraints.
Proof.
  eexists _, _. split; [reflexivity|]. split; [reflexivity|]. split; [reflexivity|].
  cbn. rewrite !cos_0, !sin_0, !cos_PI2, !sin_PI2, !cos_PI, !sin_PI, !cos_3PI2, !sin_3PI2.
  repeat apply Forall_cons; try apply Forall_nil;
  match goal with |- Rabs ?t <= 0 => replace t with 0; [rewrite Rabs_R0; lra|] end;
    try lra. unfold line_constraint, Rdiv. cbn. rewrite sin_0, cos_0. ring.
Qed.

(** ** C98: what is minimised *)

(** On a flat computation or an open circuit, the objective is the trapezoidal integral, along
    the circuit, of the weighted sum of squares described by the options. *)
Theorem C98_objective_partial : forall closest closed el w N ds last_ds left_curve right_curve center_curve direction x
    objective constraints factor pts first,
  closed = false \/ el = false ->
  length x = n_variables el N -> (1 <= N)%nat -> S (length ds) = N -> left_curve <> [] -> right_curve <> [] ->
  rd x 0 = Ok factor -> load_points el x 1 N = Ok pts ->
  let ns := nodes closest el left_curve right_curve center_curve pts in
  nth_error ns 0 = Some first ->
  let lengths := if closed : bool then ds ++ [last_ds] else ds in
  fg closest closed el w (length lengths) N lengths left_curve right_curve center_curve direction x = Ok (objective, constraints) ->
  objective = trapezoid (density el w) factor lengths (if closed then ns ++ [first] else ns).
Proof.
  intros cl closed el w N ds ld lc rc cc dir x obj cons factor pts first Hce Hx HN Hds Hl Hr Hf Hp ns Hfirst lengths Hfg.
  assert (L : (0 < length lc)%nat) by (destruct lc; [congruence|simpl; lia]).
  assert (L' : (0 < length rc)%nat) by (destruct rc; [congruence|simpl; lia]).
  destruct (nth_error_ex _ lc 0 L) as (lf & Hlf). destruct (nth_error_ex _ rc 0 L') as (rf & Hrf).
  destruct (nth_error_ex _ lc (length lc - 1)) as (lb & Hlb); [lia|].
  destruct (nth_error_ex _ rc (length rc - 1)) as (rb & Hrb); [lia|].
  pose proof (fg_eq cl closed el w N ds ld lc rc cc dir x lf rf lb rb Hx HN Hds Hlf Hrf Hlb Hrb) as E.
  unfold all_ds in E. fold lengths in E. rewrite E in Hfg. injection Hfg as <- _.
  assert (Lx : (1 + (n_states el + n_ctrls el) * N <= length x)%nat) by (rewrite Hx; unfold n_variables; lia).
  rewrite load_points_ok in Hp by exact Lx. injection Hp as <-.
  fold (the_nodes cl el N lc rc cc x) in ns.
  rewrite (rd_some _ x 0 (the_factor x)) in Hf by (apply nth_error_nth'; lia). injection Hf as <-.
  assert (LN : length ns = N) by (unfold ns, the_nodes; rewrite nodes_length, points_of_length; reflexivity).
  replace (N - 1)%nat with (length ds) at 1 by lia. unfold inner_cost, nd. fold ns.
  rewrite inner_trapezoid by lia.
  destruct closed; [|unfold lengths; lra].
  assert (F0 : nth 0 ns dnode = first) by (now apply nth_error_nth).
  rewrite F0. unfold lengths. rewrite trapezoid_closed by lia. rewrite closing_cost_density.
  destruct Hce as [Hce|Hce]; [discriminate|]. rewrite Hce.
  rewrite (last_nth_error _ ns first (nth (N - 1) ns dnode)) by (rewrite LN; apply nth_error_nth'; lia). lra.
Qed.

Lemma distances_d2 cl d2 curve : (forall p start, fst (cl curve p true start) = d2 p) ->
  forall pts st, distances cl curve st pts = map d2 pts.
Proof. intros H pts. induction pts as [|p pts IH]; intro st; [reflexivity|]. cbn [distances map]. now rewrite H, IH. Qed.

Lemma nodes_d2 cl d2 el lc rc cc pts : (forall curve p start, fst (cl curve p true start) = d2 curve p) ->
  nodes cl el lc rc cc pts =
  map (fun p => Node (fst p) (snd p) (equations el (fst p) (snd p)) (d2 lc (tp_left (export_point el p)))
                     (d2 rc (tp_right (export_point el p))) (d2 cc (tp_center (export_point el p)))) pts.
Proof.
  intro H. unfold nodes.
  rewrite (distances_d2 cl (d2 lc)), (distances_d2 cl (d2 rc)), (distances_d2 cl (d2 cc)) by (intros; apply H).
  rewrite !map_map. induction pts as [|p pts IH]; [reflexivity|]. cbn [map combine]. f_equal. exact IH.
Qed.

Lemma trapezoid_along f g factor : forall ds s0 ns ps, map f ns = map g ps ->
  trapezoid f factor ds ns = integral_along g (arclengths s0 factor ds) ps.
Proof.
  induction ds as [|d ds IH]; intros s0 ns ps H; [destruct ns, ps; reflexivity|].
  destruct ns as [|a ns], ps as [|b ps]; try discriminate.
  { cbn [trapezoid arclengths integral_along]. now destruct (arclengths _ _ _). }
  destruct ns as [|a' ns], ps as [|b' ps]; try discriminate.
  - cbn [trapezoid arclengths integral_along]. now destruct (arclengths _ _ _).
  - assert (H' : map f (a' :: ns) = map g (b' :: ps)) by (injection H; intros; simpl; congruence).
    injection H as E1 E2 E3.
    cbn [arclengths]. destruct (arclengths (s0 + d * factor) factor ds) as [|c l] eqn:EA; [destruct ds; discriminate|].
    assert (Ec : c = s0 + d * factor) by (destruct ds; simpl in EA; congruence).
    change (factor * d / 2 * (f a + f a') + trapezoid f factor ds (a' :: ns) =
            (c - s0) / 2 * (g b + g b') + integral_along g (c :: l) (b' :: ps)).
    rewrite <- EA, <- (IH (s0 + d * factor) (a' :: ns) (b' :: ps) H'), E1, E2, Ec. lra.
Qed.

Lemma arclengths_snoc : forall ds s0 f d, arclengths s0 f (ds ++ [d]) = arclengths s0 f ds ++ [last (arclengths s0 f ds) 0 + d * f].
Proof.
  induction ds as [|e ds IH]; intros s0 f d; [reflexivity|].
  cbn [app arclengths]. rewrite IH. f_equal. f_equal. f_equal. f_equal.
  destruct (arclengths (s0 + e * f) f ds) eqn:E; [destruct ds; discriminate|]. reflexivity.
Qed.

(** The same, read on the circuit that is returned: what is integrated along its arclengths, up
    to its length if it is closed, are the squared distances of its left edge to the left
    measured boundary, of its right edge to the right one and of its centre to the measured
    centreline, and the squares of its own exported derivatives. *)
Theorem C98_objective_of_circuit_partial : forall closest d2 closed el w N ds last_ds left_curve right_curve center_curve
    direction x objective constraints c,
  (forall curve p start, fst (closest curve p true start) = d2 curve p) ->
  closed = false \/ el = false ->
  length x = n_variables el N -> (1 <= N)%nat -> S (length ds) = N -> left_curve <> [] -> right_curve <> [] ->
  let lengths := if closed : bool then ds ++ [last_ds] else ds in
  fg closest closed el w (length lengths) N lengths left_curve right_curve center_curve direction x = Ok (objective, constraints) ->
  export_circuit closed el N ds last_ds x = Ok c ->
  objective = integral_along (point_density el w d2 left_curve right_curve center_curve)
                (if closed then co_s c ++ [co_length c] else co_s c)
                (if closed then co_points c ++ firstn 1 (co_points c) else co_points c).
Proof.
  intros cl d2 closed el w N ds ld lc rc cc dir x obj cons c Hd Hce Hx HN Hds Hl Hr lengths Hfg Hex.
  assert (Lx : (1 + (n_states el + n_ctrls el) * N <= length x)%nat) by (rewrite Hx; unfold n_variables; lia).
  rewrite export_eq in Hex by assumption. injection Hex as <-. cbn [co_s co_length co_points].
  pose (ns := nodes cl el lc rc cc (points_of el x 1 N)).
  destruct (nth_error_ex _ ns 0) as (first & Hfirst).
  { unfold ns. rewrite nodes_length, points_of_length. lia. }
  pose proof (C98_objective_partial cl closed el w N ds ld lc rc cc dir x obj cons (the_factor x) (points_of el x 1 N) first
                Hce Hx HN Hds Hl Hr (rd_some _ x 0 (the_factor x) ltac:(apply nth_error_nth'; lia))
                (load_points_ok el x N 1 Lx) Hfirst Hfg) as E.
  rewrite E. fold ns.
  assert (M : map (density el w) ns = map (point_density el w d2 lc rc cc) (map (export_point el) (points_of el x 1 N))).
  { unfold ns. rewrite (nodes_d2 cl d2) by exact Hd. rewrite !map_map. apply map_ext. intros p.
    unfold density, point_density. destruct el; reflexivity. }
  destruct closed.
  - unfold lengths. rewrite <- (arclengths_snoc ds 0 (the_factor x) ld). apply trapezoid_along.
    rewrite !map_app, M. f_equal.
    destruct ns as [|n0 ns']; [discriminate|]. simpl in Hfirst. injection Hfirst as <-.
    destruct (map (export_point el) (points_of el x 1 N)); simpl in *; [discriminate|]. injection M as M0 _. now rewrite M0.
  - unfold lengths. now apply trapezoid_along.
Qed.

(** The hypothesis on the search is met by the exact distance to the vertices of the curve. *)
Example C98_circuit_example : exists objective constraints c,
  let search := fun (curve : list vec) (p : vec) (_ : bool) (_ : nat) => (M_Vec.dot (vsub p (hd p curve)) (vsub p (hd p curve)), (0, 0)%nat) in
  fg search true false (Weights 1 1 1 1 1 1 1 1 1) 4 4 [2; 2; 2; 2]
     [V 0 (-5) 0] [V 0 5 0] [V 0 0 0] 1 round_square = Ok (objective, constraints) /\
  export_circuit true false 4 [2; 2; 2] 2 round_square = Ok c /\ length (co_points c) = 4%nat.
Proof. eexists _, _, _. split; [reflexivity|]. split; reflexivity. Qed.

(** On a closed circuit with elevation, the closing element leaves out the pitch and roll
    terms: with every other term zero and a pitch to smooth, nothing is minimised there. *)
Theorem C98_closing_element_refuted : forall closest w N ds last_ds left_curve right_curve center_curve direction x
    objective constraints factor pts first final,
  length x = n_variables true N -> (1 <= N)%nat -> S (length ds) = N -> left_curve <> [] -> right_curve <> [] ->
  rd x 0 = Ok factor -> load_points true x 1 N = Ok pts ->
  let ns := nodes closest true left_curve right_curve center_curve pts in
  nth_error ns 0 = Some first -> nth_error ns (N - 1) = Some final ->
  fg closest true true w (S (length ds)) N (ds ++ [last_ds]) left_curve right_curve center_curve direction x = Ok (objective, constraints) ->
  objective = trapezoid (density true w) factor (ds ++ [last_ds]) (ns ++ [first])
    - factor * last_ds / 2 * (eps_pitch w * ((at_ (nu final) ct_dpitch_dot)^2 + (at_ (nu first) ct_dpitch_dot)^2)
                             + eps_roll w * ((at_ (nu final) ct_droll_dot)^2 + (at_ (nu first) ct_droll_dot)^2)) /\
  (0 < factor * last_ds -> 0 < eps_pitch w -> 0 <= eps_roll w -> at_ (nu first) ct_dpitch_dot <> 0 ->
   objective <> trapezoid (density true w) factor (ds ++ [last_ds]) (ns ++ [first])).
Proof.
  intros cl w N ds ld lc rc cc dir x obj cons factor pts first final Hx HN Hds Hl Hr Hf Hp ns Hfirst Hfinal Hfg.
  assert (L : (0 < length lc)%nat) by (destruct lc; [congruence|simpl; lia]).
  assert (L' : (0 < length rc)%nat) by (destruct rc; [congruence|simpl; lia]).
  destruct (nth_error_ex _ lc 0 L) as (lf & Hlf). destruct (nth_error_ex _ rc 0 L') as (rf & Hrf).
  destruct (nth_error_ex _ lc (length lc - 1)) as (lb & Hlb); [lia|].
  destruct (nth_error_ex _ rc (length rc - 1)) as (rb & Hrb); [lia|].
  pose proof (fg_eq cl true true w N ds ld lc rc cc dir x lf rf lb rb Hx HN Hds Hlf Hrf Hlb Hrb) as E.
  unfold all_ds in E. rewrite app_length in E. simpl length in E. rewrite Nat.add_1_r in E.
  rewrite E in Hfg. injection Hfg as <- _.
  assert (Lx : (1 + (n_states true + n_ctrls true) * N <= length x)%nat) by (rewrite Hx; unfold n_variables; lia).
  rewrite load_points_ok in Hp by exact Lx. injection Hp as <-.
  fold (the_nodes cl true N lc rc cc x) in ns.
  rewrite (rd_some _ x 0 (the_factor x)) in Hf by (apply nth_error_nth'; lia). injection Hf as <-.
  assert (LN : length ns = N) by (unfold ns, the_nodes; rewrite nodes_length, points_of_length; reflexivity).
  assert (Es : sumR (map (inner_cost cl true w N ds lc rc cc x) (seq 1 (N - 1))) = trapezoid (density true w) (the_factor x) ds ns).
  { replace (N - 1)%nat with (length ds) by lia. unfold inner_cost, nd. fold ns. now rewrite inner_trapezoid by lia. }
  rewrite Es. unfold nd. fold ns.
  assert (F0 : nth 0 ns dnode = first) by (now apply nth_error_nth).
  assert (F1 : nth (N - 1) ns dnode = final) by (now apply nth_error_nth).
  rewrite F0, F1. rewrite trapezoid_closed by lia. rewrite closing_cost_density.
  rewrite (last_nth_error _ ns first final) by (now rewrite LN).
  set (t := trapezoid _ _ _ _). set (dp := density true w final). set (df := density true w first).
  set (a := at_ (nu final) ct_dpitch_dot). set (b := at_ (nu first) ct_dpitch_dot).
  set (c := at_ (nu final) ct_droll_dot). set (d := at_ (nu first) ct_droll_dot). set (k := the_factor x * ld).
  clearbody t dp df a b c d k. split; [lra|].
  intros Hk Hpi Hro Hb Heq.
  assert (0 < eps_pitch w * (a ^ 2 + b ^ 2) + eps_roll w * (c ^ 2 + d ^ 2)).
  { assert (0 < b ^ 2) by (simpl; rewrite Rmult_1_r; destruct (Rtotal_order b 0) as [?|[?|?]]; nra).
    assert (0 <= a ^ 2) by (simpl; nra). assert (0 <= c ^ 2) by (simpl; nra). assert (0 <= d ^ 2) by (simpl; nra).
    assert (0 < eps_pitch w * (a ^ 2 + b ^ 2)) by (apply Rmult_lt_0_compat; lra).
    assert (0 <= eps_roll w * (c ^ 2 + d ^ 2)) by (apply Rmult_le_pos; lra). lra. }
  assert (0 < k / 2 * (eps_pitch w * (a ^ 2 + b ^ 2) + eps_roll w * (c ^ 2 + d ^ 2))) by (apply Rmult_lt_0_compat; lra).
  lra.
Qed.

Example C98_closing_example : exists objective constraints first,
  let x := 1 :: [0;0;0; 0;0;0; 0;0;0; 5;5; 0;1;0; 0;0] in
  let ns := nodes (fun _ _ _ _ => (0, (0, 0)%nat)) true [V 0 0 0] [V 1 0 0] [V 0 0 0] [([0;0;0; 0;0;0; 0;0;0; 5;5], [0;1;0; 0;0])] in
  fg (fun _ _ _ _ => (0, (0, 0)%nat)) true true (Weights 1 1 1 1 1 1 1 1 1) 1 1 [2] [V 0 0 0] [V 1 0 0] [V 0 0 0] 1 x = Ok (objective, constraints) /\
  length x = n_variables true 1 /\ load_points true x 1 1 = Ok [([0;0;0; 0;0;0; 0;0;0; 5;5], [0;1;0; 0;0])] /\
  nth_error ns 0 = Some first /\ at_ (nu first) ct_dpitch_dot <> 0 /\ objective = 0.
Proof.
  eexists _, _, _. split; [reflexivity|]. split; [reflexivity|]. split; [reflexivity|]. split; [reflexivity|].
  split; [cbn; lra|]. unfold closing_cost. cbn. lra.
Qed.

(** On an open circuit the distances are still those to the closed polygons: two searches that
    agree on every open curve give different objectives. *)
Theorem C98_open_distance_refuted : exists closest closest' w N ds left_curve right_curve center_curve x o o' cs cs',
  (forall curve p start, closest curve p false start = closest' curve p false start) /\
  length x = n_variables false N /\ S (length ds) = N /\
  fg closest false false w (length ds) N ds left_curve right_curve center_curve 0 x = Ok (o, cs) /\
  fg closest' false false w (length ds) N ds left_curve right_curve center_curve 0 x = Ok (o', cs') /\ o <> o'.
Proof.
  exists (fun _ _ _ _ => (0, (0, 0)%nat)), (fun _ _ (c : bool) _ => (if c then 1 else 0, (0, 0)%nat)),
    (Weights 1 1 1 1 1 1 1 1 1), 2%nat, [1], [V 0 0 0; V 1 0 0], [V 0 1 0; V 1 1 0], [V 0 0.5 0; V 1 0.5 0],
    [1; 0; 0; 0; 0; 1; 1; 0; 0; 0; 1; 0; 0; 0; 1; 1; 0; 0; 0].
  eexists _, _, _, _. split; [reflexivity|]. split; [reflexivity|]. split; [reflexivity|].
  split; [reflexivity|]. split; [reflexivity|]. cbn. unfold element_cost. cbn. lra.
Qed.

(** ** C99: the box of the variables *)

(** The start vector holds the estimate where the problem reads it. *)
Theorem C99_start_vector_is_the_estimate : forall closed el gs ds last_ds, gs <> [] ->
  length (start_vector el gs) = n_variables el (length gs) /\
  exists c, export_circuit closed el (length gs) ds last_ds (start_vector el gs) = Ok c /\
  co_s c = arclengths 0 1 ds /\
  forall i g, nth_error gs i = Some g -> exists p, nth_error (co_points c) i = Some p /\
    tp_center p = V (g_x g) (g_y g) (if el then g_z g else 0) /\
    tp_angles p = Euler (g_yaw g) (if el then g_pitch g else 0) (if el then g_roll g else 0) /\
    tp_rates p = Euler (g_yaw_dot g) (if el then g_pitch_dot g else 0) (if el then g_roll_dot g else 0) /\
    tp_accel p = Euler (g_dyaw_dot g) (if el then g_dpitch_dot g else 0) (if el then g_droll_dot g else 0) /\
    tp_nl p = g_nl g /\ tp_nr p = g_nr g /\ tp_dnl p = g_dnl g /\ tp_dnr p = g_dnr g.
Proof.
  intros closed el gs ds ld Hgs. split; [apply start_length|].
  assert (HN : (1 <= length gs)%nat) by (destruct gs; [congruence|simpl; lia]).
  rewrite export_eq by (try apply start_length; exact HN). eexists; split; [reflexivity|]. split; [reflexivity|].
  cbn [co_points]. intros i g Hg. assert (Hi : (i < length gs)%nat) by (apply nth_error_Some; congruence).
  exists (export_point el (point_at el (start_vector el gs) 1 i)).
  split; [rewrite nth_error_map, points_of_nth by exact Hi; reflexivity|].
  assert (Es : forall j, (j < n_states el)%nat -> at_ (fst (point_at el (start_vector el gs) 1 i)) j = nth j (start_point el g) 0).
  { intros j Hj. rewrite point_state by exact Hj. apply nth_error_nth.
    rewrite (start_nth el gs i g) by (try exact Hg; lia). apply nth_error_nth'. rewrite start_point_length. lia. }
  assert (Ec : forall j, (j < n_ctrls el)%nat -> at_ (snd (point_at el (start_vector el gs) 1 i)) j = nth (n_states el + j) (start_point el g) 0).
  { intros j Hj. rewrite point_ctrl by exact Hj. apply nth_error_nth. rewrite <- Nat.add_assoc.
    rewrite (start_nth el gs i g) by (try exact Hg; lia). apply nth_error_nth'. rewrite start_point_length. lia. }
  unfold export_point, get_coordinates, st_euler, coordinates, coordinates_flat.
  cbn [tp_center tp_angles tp_rates tp_accel tp_nl tp_nr tp_dnl tp_dnr].
  unfold ct_dyaw_dot, ct_dpitch_dot, ct_droll_dot, ct_dnl, ct_dnr, st_x, st_y, st_z, st_yaw, st_pitch, st_roll, st_yaw_dot, st_pitch_dot, st_roll_dot, st_nl, st_nr.
  destruct el; cbn [n_states n_ctrls] in *;
  rewrite ?Es, ?Ec by (cbn; lia); cbn [nth start_point app Nat.add vx vy vz];
  rewrite ?Rmult_0_r, ?Rplus_0_r, ?Rminus_0_r; repeat split; reflexivity.
Qed.
Example C99_example : exists c, export_circuit false true 1 [] 0
  (start_vector true [Guess 1 2 3 4 5 6 7 8 9 10 11 12 13 14 15 16]) = Ok c /\ 
  map tp_nr (co_points c) = [11] /\ map tp_accel (co_points c) = [Euler 12 13 14].
Proof. eexists. split; [reflexivity|]. split; reflexivity. Qed.

(** Any vector inside of the bounds gives a circuit with increasing arclength, a length between
    0.9 and 1.11 times the estimate, half-widths of at least one metre, at most the estimated
    width, points within 100 m (10 m in height) of the estimate, and limited curvatures. *)
Theorem C99_returned_circuit_in_bounds : forall closed el w gs ds last_ds x c,
  gs <> [] -> S (length ds) = length gs -> Forall (fun d => 0 < d) ds -> 0 < last_ds ->
  in_box (lower_vector el w gs) x (upper_vector el w gs) ->
  export_circuit closed el (length gs) ds last_ds x = Ok c ->
  let estimate := fold_right Rplus 0 ds + (if closed : bool then last_ds else 0) in
  increasing (co_s c) /\ nth_error (co_s c) 0 = Some 0 /\ last (co_s c) 0 <= co_length c /\ (closed = true -> last (co_s c) 0 < co_length c) /\
  0.9 * estimate <= co_length c <= 1.11 * estimate /\
  forall i g p, nth_error gs i = Some g -> nth_error (co_points c) i = Some p ->
    1 <= tp_nl p <= g_nl g + g_nr g /\ 1 <= tp_nr p <= g_nl g + g_nr g /\
    Rabs (vx (tp_center p) - g_x g) <= 100 /\ Rabs (vy (tp_center p) - g_y g) <= 100 /\
    (el = true -> Rabs (vz (tp_center p) - g_z g) <= 10) /\
    Rabs (yaw (tp_angles p) - g_yaw g) <= PI / 6 /\
    (el = true -> Rabs (pitch (tp_angles p) - g_pitch g) <= PI / 18 /\ Rabs (roll (tp_angles p) - g_roll g) <= PI / 18) /\
    Rabs (yaw (tp_rates p)) <= max_yaw_dot w /\ Rabs (yaw (tp_accel p)) <= max_dyaw_dot w /\
    Rabs (tp_dnl p) <= max_dn w /\ Rabs (tp_dnr p) <= max_dn w.
Proof.
  intros closed el w gs ds ld x c Hgs Hds Hpos Hld Hbox Hex estimate.
  assert (HN : (1 <= length gs)%nat) by (destruct gs; [congruence|simpl; lia]).
  pose proof Hbox as (L1 & L2 & _). rewrite lower_length in L1.
  rewrite export_eq in Hex by (try congruence; exact HN). injection Hex as <-. cbn [co_s co_length co_points].
  pose proof (box_factor _ _ _ _ Hbox) as Hf.
  assert (Es : fold_right Rplus 0 ds = sumR ds) by (clear; induction ds as [|d ds IH]; simpl; [reflexivity|now rewrite IH]).
  assert (Hs : 0 <= sumR ds).
  { clear - Hpos. induction Hpos; simpl; lra. }
  split; [apply arclengths_increasing; [lra|exact Hpos]|].
  split; [destruct ds; reflexivity|].
  split; [destruct closed; nra|]. split; [intros ->; nra|].
  split. { rewrite arclengths_last. unfold estimate. rewrite Es. destruct closed; nra. }
  intros i g p Hg Hp. apply export_points_nth in Hp. destruct Hp as [Hi ->].
  assert (Bs : forall j, (j < n_states el)%nat ->
    nth j (lower_point el w g) 0 <= at_ (fst (point_at el x 1 i)) j <= nth j (upper_point el w g) 0).
  { intros j Hj. rewrite point_state by exact Hj. apply (box_point el w gs x i g Hbox Hg). lia. }
  assert (Bc : forall j, (j < n_ctrls el)%nat ->
    nth (n_states el + j) (lower_point el w g) 0 <= at_ (snd (point_at el x 1 i)) j <= nth (n_states el + j) (upper_point el w g) 0).
  { intros j Hj. rewrite point_ctrl by exact Hj. rewrite <- Nat.add_assoc. apply (box_point el w gs x i g Hbox Hg). lia. }
  unfold export_point, get_coordinates, st_euler, coordinates, coordinates_flat.
  cbn [tp_center tp_angles tp_rates tp_accel tp_nl tp_nr tp_dnl tp_dnr].
  unfold ct_dyaw_dot, ct_dpitch_dot, ct_droll_dot, ct_dnl, ct_dnr, st_x, st_y, st_z, st_yaw, st_pitch, st_roll, st_yaw_dot, st_pitch_dot, st_roll_dot, st_nl, st_nr.
  destruct el; cbn [n_states n_ctrls] in Bs, Bc; cbn [vx vy vz yaw pitch roll].
  - pose proof (Bs 0%nat ltac:(lia)) as B0. pose proof (Bs 1%nat ltac:(lia)) as B1. pose proof (Bs 2%nat ltac:(lia)) as B2.
    pose proof (Bs 3%nat ltac:(lia)) as B3. pose proof (Bs 4%nat ltac:(lia)) as B4. pose proof (Bs 5%nat ltac:(lia)) as B5.
    pose proof (Bs 6%nat ltac:(lia)) as B6. pose proof (Bs 9%nat ltac:(lia)) as B9. pose proof (Bs 10%nat ltac:(lia)) as B10.
    pose proof (Bc 0%nat ltac:(lia)) as C0. pose proof (Bc 3%nat ltac:(lia)) as C3. pose proof (Bc 4%nat ltac:(lia)) as C4.
    cbn [nth lower_point upper_point app Nat.add] in *. unfold DEG in *.
    rewrite !Rmult_0_r, !Rplus_0_r.
    repeat split; try lra; try (apply Rabs_le; lra); intros _; try split; apply Rabs_le; lra.
  - pose proof (Bs 0%nat ltac:(lia)) as B0. pose proof (Bs 1%nat ltac:(lia)) as B1. pose proof (Bs 2%nat ltac:(lia)) as B2.
    pose proof (Bs 3%nat ltac:(lia)) as B3. pose proof (Bs 4%nat ltac:(lia)) as B4. pose proof (Bs 5%nat ltac:(lia)) as B5.
    pose proof (Bc 0%nat ltac:(lia)) as C0. pose proof (Bc 1%nat ltac:(lia)) as C1. pose proof (Bc 2%nat ltac:(lia)) as C2.
    cbn [nth lower_point upper_point app Nat.add] in *. unfold DEG in *.
    rewrite !Rmult_0_r, !Rplus_0_r, !Rminus_0_r.
    repeat split; try lra; try (apply Rabs_le; lra); discriminate.
Qed.

(** A track that the estimate finds narrower than one metre somewhere cannot be processed: no
    vector is inside of the bounds. *)
Theorem C99_narrow_track_refuted : forall el w gs x i g, nth_error gs i = Some g -> g_nl g + g_nr g < 1 ->
  ~ in_box (lower_vector el w gs) x (upper_vector el w gs).
Proof.
  intros el w gs x i g Hg Hn Hbox. pose proof (box_point el w gs x i g Hbox Hg (st_nl el)) as H.
  unfold st_nl in H. destruct el; cbn [n_states n_ctrls] in H; specialize (H ltac:(lia)); cbn [nth lower_point upper_point app] in H; lra.
Qed.
Example C99_box_example : in_box (lower_vector false (Weights 1 1 1 1 1 1 1 1 1) [Guess 0 0 0 0 0 0 0 0 0 5 5 0 0 0 0 0])
   [1; 0; 0; 0; 0; 5; 5; 0; 0; 0] (upper_vector false (Weights 1 1 1 1 1 1 1 1 1) [Guess 0 0 0 0 0 0 0 0 0 5 5 0 0 0 0 0]).
Proof.
  split; [reflexivity|]. split; [reflexivity|]. intros i a v b Ha Hv Hb. assert (P := PI_RGT_0).
  do 10 (destruct i as [|i]; [cbn in Ha, Hv, Hb; injection Ha as <-; injection Hv as <-; injection Hb as <-; unfold DEG; lra|]).
  destruct i; discriminate.
Qed.

(** ** C100: GPS coordinates *)

(** Between the poles, the parameters and formulas written in the circuit file give every GPS
    coordinate back; the first point of the right boundary is the origin seen from above;
    points further north have a smaller y, and higher ones a smaller z. *)
Theorem C100_gps_round_trip : forall ref c, Rabs (latitude ref) < 90 ->
  longitude c = (vx (transform ref c) / (R_earth * cos (latitude ref * (PI / 180)))) / (PI / 180) + longitude ref /\
  latitude c = - (vy (transform ref c) / R_earth) / (PI / 180) + latitude ref /\
  altitude c = - vz (transform ref c).
Proof.
  intros ref c H. apply Rabs_def2 in H. assert (P := PI_RGT_0).
  assert (C : 0 < cos (latitude ref * (PI / 180))) by (apply cos_gt_0; nra).
  unfold transform, DEG, R_earth. cbn [vx vy vz]. set (k := cos _) in *. clearbody k.
  repeat split; try lra; field; lra.
Qed.
Theorem C100_origin_and_axes : forall right boundary ref ps, nth_error right 0 = Some ref -> 
  transform_boundary right boundary = Ok ps ->
  length ps = length boundary /\
  (vx (transform ref ref) = 0 /\ vy (transform ref ref) = 0) /\
  forall i j a b p q, nth_error boundary i = Some a -> nth_error boundary j = Some b ->
    nth_error ps i = Some p -> nth_error ps j = Some q ->
    (latitude a < latitude b <-> vy q < vy p) /\ (altitude a < altitude b <-> vz q < vz p) /\
    (Rabs (latitude ref) < 90 -> (longitude a < longitude b <-> vx p < vx q)).
Proof.
  intros right boundary ref ps Hr H. unfold transform_boundary, front in H. rewrite (rd_some _ _ _ _ Hr) in H.
  cbn [bind] in H. injection H as <-. split; [apply map_length|]. split; [unfold transform; simpl; split; ring|].
  intros i j a b p q Ha Hb Hp Hq. rewrite nth_error_map in Hp, Hq. rewrite Ha in Hp. rewrite Hb in Hq.
  simpl in Hp, Hq. injection Hp as <-. injection Hq as <-. unfold transform, DEG, R_earth. cbn [vx vy vz].
  assert (P := PI_RGT_0).
  split; [split; intro; nra|]. split; [split; intro; lra|].
  intro H. apply Rabs_def2 in H.
  assert (C : 0 < cos (latitude ref * (PI / 180))) by (apply cos_gt_0; nra).
  set (k := cos _) in *. clearbody k.
  assert (M : 0 < PI / 180 * 6378388 * k) by (apply Rmult_lt_0_compat; lra).
  replace ((longitude a * (PI / 180) - longitude ref * (PI / 180)) * 6378388 * k) with ((longitude a - longitude ref) * (PI / 180 * 6378388 * k)) by ring.
  replace ((longitude b * (PI / 180) - longitude ref * (PI / 180)) * 6378388 * k) with ((longitude b - longitude ref) * (PI / 180 * 6378388 * k)) by ring.
  set (m := PI / 180 * 6378388 * k) in *. clearbody m. split; intro; nra.
Qed.
Example C100_example : exists ps, transform_boundary [Coord 2 41 100; Coord 3 41 100] [Coord 2 41 100; Coord 2 42 130] = Ok ps /\ length ps = 2%nat.
Proof. eexists. split; reflexivity. Qed.

(** The same place written with another turn of longitude is put elsewhere: a track across the
    180th meridian is torn apart. *)
Theorem C100_meridian_refuted : exists ref a b, same_place a b /\ Rabs (latitude ref) < 90 /\ vx (transform ref a) <> vx (transform ref b).
Proof.
  exists (Coord 180 0 0), (Coord 180 0 0), (Coord (-180) 0 0). split.
  - repeat split; try reflexivity. exists 1%Z. simpl. lra.
  - simpl. rewrite Rabs_R0. split; [lra|]. unfold R_earth, DEG. rewrite Rmult_0_l, cos_0. assert (P := PI_RGT_0). lra.
Qed.

(** The point of a mesh size breakpoint loses its altitude: given exactly at a vertex of the
    boundary, the closest vertex may be another one. *)
Theorem C100_breakpoint_altitude_refuted : exists ref boundary b p,
  In b boundary /\ closest_vertex (map (transform ref) boundary) (transform_breakpoint ref b) p /\ p <> transform ref b /\
  ~ closest_vertex (map (transform ref) boundary) (transform_breakpoint ref b) (transform ref b).
Proof.
  set (d := 180 / (PI * 6378388)). assert (P := PI_RGT_0).
  assert (D : d * (PI / 180) * 6378388 = 1) by (unfold d; field; lra).
  exists (Coord 0 0 0), [Coord 0 0 100; Coord d 0 0], (Coord 0 0 100), (transform (Coord 0 0 0) (Coord d 0 0)).
  assert (E1 : transform (Coord 0 0 0) (Coord d 0 0) = V 1 0 0).
  { unfold transform, R_earth, DEG. simpl. rewrite !Rmult_0_l, cos_0. f_equal; lra. }
  assert (E0 : transform (Coord 0 0 0) (Coord 0 0 100) = V 0 0 (-100)).
  { unfold transform, R_earth, DEG. simpl. rewrite !Rmult_0_l, cos_0. f_equal; lra. }
  assert (Eb : transform_breakpoint (Coord 0 0 0) (Coord 0 0 100) = V 0 0 0).
  { unfold transform_breakpoint, R_earth, DEG. simpl. rewrite !Rmult_0_l, cos_0. f_equal; lra. }
  cbn [map]. rewrite E0, E1, Eb. split; [now left|]. split; [split; [right; now left|]|split].
  - intros v [<-|[<-|[]]]; unfold dist2, dot, vsub; simpl; lra.
  - intro H. injection H. lra.
  - intros [_ H]. specialize (H (V 1 0 0) ltac:(right; now left)). unfold dist2, dot, vsub in H. simpl in H. lra.
Qed.

(** ** C101: trimming to the start and finish points *)

(** A trimmed boundary is the start, the measured points strictly between start and finish,
    unchanged and in their order, and the finish - unless the finish is the first node. *)
Theorem C101_trimmed_boundary_partial : forall c st fin, located (length c) st -> located (length c) fin -> 
  node_from fin <> 0%nat ->
  exists a b, trim_boundary c st fin = Ok (a :: slice c (node_after st) (node_from fin) ++ [b]) /\
    flatten a = V (vx (near_p st)) (vy (near_p st)) 0 /\ flatten b = V (vx (near_p fin)) (vy (near_p fin)) 0.
Proof.
  intros c st fin [Hs Hs'] [Hf Hf'] H0. unfold node_from, node_after in *.
  exists (Coord (vx (near_p st)) (vy (near_p st)) 0), (Coord (vx (near_p fin)) (vy (near_p fin)) 0).
  split; [|split; reflexivity]. unfold trim_boundary.
  assert (Ei : (if near_i st =? near_j st then near_j st + 1 else near_j st)%nat = S (near_i st)).
  { destruct Hs as [->| ->]; [rewrite Nat.eqb_refl; lia|]. destruct (Nat.eqb_spec (near_i st) (S (near_i st))); lia. }
  rewrite Ei.
  assert (Ef : (if (near_i fin =? near_j fin)%nat then match near_i fin with O => UB | S k => Ok k end else Ok (near_i fin)) = Ok (near_j fin - 1)%nat).
  { destruct Hf as [Hf|Hf]; rewrite Hf in *.
    - rewrite Nat.eqb_refl. destruct (near_i fin); [lia|]. f_equal. lia.
    - destruct (Nat.eqb_spec (near_i fin) (S (near_i fin))); [lia|]. f_equal. lia. }
  rewrite Ef. cbn [bind].
  replace (near_j fin - 1 + 1 - S (near_i st))%nat with (near_j fin - S (near_i st))%nat by lia.
  assert (G : forall n lo, (lo + n <= length c \/ n = 0)%nat -> all_ok (map (rd c) (seq lo n)) = Ok (firstn n (skipn lo c))).
  { induction n as [|n IH]; intros lo Hl; [reflexivity|]. cbn [seq map all_ok].
    destruct (nth_error_ex _ c lo ltac:(lia)) as (v & Hv). rewrite (rd_some _ _ _ _ Hv). cbn [bind].
    rewrite IH by lia. cbn [bind]. f_equal.
    assert (E : skipn lo c = v :: skipn (S lo) c).
    { clear - Hv. revert c Hv. induction lo as [|lo IH]; intros [|x c] Hv; try discriminate; simpl in *.
      - congruence.
      - now rewrite (IH c Hv). }
    rewrite E. reflexivity. }
  rewrite G by lia. reflexivity.
Qed.
Example C101_example : trim_boundary [Coord 0 0 7; Coord 1 0 7; Coord 2 0 7; Coord 3 0 7] (Near (V 0.5 0 0) 0 1) (Near (V 3 0 0) 3 3)
  = Ok [Coord 0.5 0 0; Coord 1 0 7; Coord 2 0 7; Coord 3 0 0].
Proof. reflexivity. Qed.

Lemma inside_between : forall a, inside_check (V a 0 0) (V a (-1) 0) (V a 1 0) = true.
Proof.
  intros a. unfold inside_check.
  assert (N1 : norm (vsub (V a 0 0) (V a (-1) 0)) = 1).
  { unfold norm, dot, vsub. cbn [vx vy vz]. replace (_ + _) with 1 by ring. apply sqrt_1. }
  assert (N2 : norm (vsub (V a 0 0) (V a 1 0)) = 1).
  { unfold norm, dot, vsub. cbn [vx vy vz]. replace (_ + _) with 1 by ring. apply sqrt_1. }
  rewrite N1, N2. unfold dot, vsub. cbn [vx vy vz].
  destruct (Rlt_dec _ _) as [H|H]; [|reflexivity]. exfalso. lra.
Qed.

(** Start and finish must lie between the boundaries: seen from each of them, the closest points
    of the two boundaries are more than about 143 degrees apart (cosine below -0.8); otherwise, or
    if the finish is behind the start, the call throws. *)
Theorem C101_inside_partial : forall near_to left_c right_c start finish,
  let near_left c := near_to (map flatten left_c) (flatten c) in
  let near_right c := near_to (map flatten right_c) (flatten c) in
  let between c := dot (vsub (near_p (near_left c)) (flatten c)) (vsub (near_p (near_right c)) (flatten c)) <=
    - (8 / 10) * (norm (vsub (near_p (near_left c)) (flatten c)) * norm (vsub (near_p (near_right c)) (flatten c))) in
  let forward := (near_i (near_left start) <= near_i (near_left finish))%nat /\ (near_i (near_right start) <= near_i (near_right finish))%nat in
  (between start /\ between finish /\ forward ->
     trim near_to left_c right_c start finish =
     bind (trim_boundary left_c (near_left start) (near_left finish)) (fun l =>
     bind (trim_boundary right_c (near_right start) (near_right finish)) (fun r => Ok (l, r)))) /\
  (~ (between start /\ between finish /\ forward) -> trim near_to left_c right_c start finish = Throw).
Proof.
  intros nt lc rc st fi nl nr between forward.
  assert (Hn : forall a b, norm (vsub a b) = norm (vsub b a)).
  { intros a b. unfold norm, dot, vsub. cbn [vx vy vz]. f_equal. ring. }
  assert (I : forall c, inside_check (flatten c) (near_p (nl c)) (near_p (nr c)) = true <-> between c).
  { intro c. unfold inside_check, between. rewrite (Hn (flatten c) (near_p (nl c))), (Hn (flatten c) (near_p (nr c))).
    replace (dot (vsub (flatten c) (near_p (nl c))) (vsub (flatten c) (near_p (nr c))))
      with (dot (vsub (near_p (nl c)) (flatten c)) (vsub (near_p (nr c)) (flatten c))) by (unfold dot, vsub; cbn [vx vy vz]; ring).
    destruct (Rlt_dec _ _) as [H|H]; split; intro K; try discriminate; try reflexivity; exfalso + idtac; lra. }
  unfold trim. fold (nl st) (nr st) (nl fi) (nr fi).
  split.
  - intros (Hs & Hf & F1 & F2). apply I in Hs, Hf. rewrite Hs, Hf. cbn [negb].
    apply Nat.ltb_ge in F1, F2. now rewrite F1, F2.
  - intro H. destruct (inside_check (flatten st) _ _) eqn:Es; [|reflexivity].
    destruct (inside_check (flatten fi) _ _) eqn:Ef; [|reflexivity]. cbn [negb].
    destruct (Nat.ltb_spec (near_i (nl fi)) (near_i (nl st))); [reflexivity|].
    destruct (Nat.ltb_spec (near_i (nr fi)) (near_i (nr st))); [reflexivity|].
    exfalso. apply H. split; [now apply I|]. split; [now apply I|]. split; assumption.
Qed.
(** A point on the segment between the two closest points passes. *)
Theorem C101_on_segment_partial : forall p l r k, 0 <= k -> vsub r p = vscale (- k) (vsub l p) -> inside_check p l r = true.
Proof.
  intros p l r k Hk H. unfold inside_check.
  assert (E : vsub p r = vscale (- k) (vsub p l)).
  { unfold vsub, vscale in *. injection H as Hx Hy Hz. apply vec_eq; cbn [vx vy vz]; lra. }
  rewrite E. set (d := vsub p l).
  assert (N : norm (vscale (- k) d) = k * norm d).
  { unfold norm. replace (dot (vscale (- k) d) (vscale (- k) d)) with ((k * k) * dot d d) by (unfold dot, vscale; cbn [vx vy vz]; ring).
    assert (0 <= dot d d) by (unfold dot; nra). rewrite sqrt_mult by nra. now rewrite sqrt_square. }
  assert (D : dot d (vscale (- k) d) = - k * (norm d * norm d)).
  { unfold norm. rewrite sqrt_sqrt by (unfold dot; nra). unfold dot, vscale. cbn [vx vy vz]. ring. }
  rewrite N, D. destruct (Rlt_dec _ _) as [L|L]; [|reflexivity]. exfalso.
  assert (0 <= k * (norm d * norm d)) by (apply Rmult_le_pos; [exact Hk|nra]). lra.
Qed.

(** The two ends of both trimmed boundaries are put at altitude zero, whatever the track: an
    open circuit with elevation starts and ends with a step down to the sea. *)
Theorem C101_end_altitude_refuted : forall near_to left_c right_c start finish l r,
  trim near_to left_c right_c start finish = Ok (l, r) ->
  (exists a m b, l = a :: m ++ [b] /\ altitude a = 0 /\ altitude b = 0) /\
  (exists a m b, r = a :: m ++ [b] /\ altitude a = 0 /\ altitude b = 0).
Proof.
  assert (T : forall c st fin l, trim_boundary c st fin = Ok l -> exists a m b, l = a :: m ++ [b] /\ altitude a = 0 /\ altitude b = 0).
  { intros c st fin l H. unfold trim_boundary in H.
    destruct (if (near_i fin =? near_j fin)%nat then _ else _) as [k| |]; try discriminate. cbn [bind] in H.
    destruct (all_ok _) as [mid| |]; try discriminate. cbn [bind] in H. injection H as <-.
    eexists _, _, _. split; [reflexivity|]. split; reflexivity. }
  intros nt lc rc st fi l r H. unfold trim in H.
  destruct (negb _); [discriminate|]. destruct (negb _); [discriminate|].
  destruct (_ <? _)%nat; [discriminate|]. destruct (_ <? _)%nat; [discriminate|].
  destruct (trim_boundary lc _ _) as [l'| |] eqn:El; try discriminate. cbn [bind] in H.
  destruct (trim_boundary rc _ _) as [r'| |] eqn:Er; try discriminate. cbn [bind] in H. injection H as <- <-.
  split; eapply T; eassumption.
Qed.

Example C101_end_altitude_example : exists near_to l r,
  trim near_to [Coord 0 (-1) 100; Coord 1 (-1) 100; Coord 2 (-1) 100] [Coord 0 1 100; Coord 1 1 100; Coord 2 1 100]
    (Coord 0 0 100) (Coord 2 0 100) = Ok (l, r) /\ map altitude l = [0; 100; 0] /\ map altitude r = [0; 100; 0].
Proof.
  exists (fun curve p => if Rlt_dec (vx p) 1 then Near (V (vx p) (vy (nth 0 curve vzero)) 0) 0 0
                         else Near (V (vx p) (vy (nth 0 curve vzero)) 0) 2 2).
  eexists _, _. split.
  - unfold trim, flatten. cbn [map nth vx vy vz longitude latitude].
    destruct (Rlt_dec 0 1); [|lra]. destruct (Rlt_dec 2 1); [lra|]. cbn [near_p near_i near_j].
    rewrite (inside_between 0), (inside_between 2). cbn [negb Nat.ltb Nat.leb]. reflexivity.
  - split; reflexivity.
Qed.

(** A finish at the first node of a boundary runs out of the vector, and a finish behind the
    start on the same segment is accepted: the trimmed track goes backwards. *)
Theorem C101_first_node_refuted : forall c st p, trim_boundary c st (Near p 0 0) = UB.
Proof. reflexivity. Qed.
Theorem C101_finish_behind_start_refuted : exists near_to left_c right_c start finish l r,
  (forall curve p, exists x, near_to curve p = Near (V (vx p) x 0) 0 1) /\
  longitude finish < longitude start /\ trim near_to left_c right_c start finish = Ok (l, r) /\
  map longitude l = [longitude start; longitude finish] /\ map longitude r = [longitude start; longitude finish].
Proof.
  exists (fun curve p => Near (V (vx p) (vy (nth 0 curve vzero)) 0) 0 1),
    [Coord 0 (-1) 0; Coord 10 (-1) 0], [Coord 0 1 0; Coord 10 1 0], (Coord 6 0 0), (Coord 4 0 0).
  eexists _, _. split; [intros; eexists; reflexivity|]. split; [simpl; lra|].
  split; [|split].
  - unfold trim. cbn [flatten map nth vx vy vz longitude latitude near_p near_i near_j].
    unfold flatten. cbn [longitude latitude]. rewrite (inside_between 6), (inside_between 4). cbn [negb Nat.ltb Nat.leb]. reflexivity.
  - reflexivity.
  - reflexivity.
Qed.

(** ** C102: heading and direction of the estimate *)

(** The corrected yaw has no jump above half a turn, and each value is the computed angle up to
    whole turns. *)
Theorem C102_yaw_continuous : forall wrap_to_pi yaws,
  (forall a, - PI <= wrap_to_pi a <= PI) -> (forall a, same_angle (wrap_to_pi a) a) ->
  length (unwrap wrap_to_pi yaws) = length yaws /\
  (forall i a b, nth_error (unwrap wrap_to_pi yaws) i = Some a -> nth_error (unwrap wrap_to_pi yaws) (S i) = Some b -> Rabs (b - a) <= PI) /\
  (forall i a b, nth_error (unwrap wrap_to_pi yaws) i = Some a -> nth_error yaws i = Some b -> same_angle a b) /\
  (forall a, nth_error yaws 0 = Some a -> nth_error (unwrap wrap_to_pi yaws) 0 = Some a).
Proof.
  intros wr yaws Hb Hs. destruct yaws as [|y ys]; [simpl; repeat split; intros; destruct i + idtac; discriminate|].
  cbn [unwrap].
  assert (G : forall ys prev, length (unwrap_from wr prev ys) = length ys /\
    (forall i a b, nth_error (prev :: unwrap_from wr prev ys) i = Some a -> nth_error (prev :: unwrap_from wr prev ys) (S i) = Some b -> Rabs (b - a) <= PI) /\
    (forall i a b, nth_error (unwrap_from wr prev ys) i = Some a -> nth_error ys i = Some b -> same_angle a b)).
  { clear y ys. induction ys as [|y ys IH]; intro prev; cbn [unwrap_from].
    - split; [reflexivity|]. split; [intros [|i] a b Ha Hn; simpl in Hn; [discriminate|destruct i; discriminate]|].
      intros [|i] a b Ha; discriminate.
    - set (y' := prev + wr (y - prev)). destruct (IH y') as (L & C & S'). split; [simpl; now rewrite L|]. split.
      + intros [|i] a b Ha Hn.
        * simpl in Ha, Hn. injection Ha as <-. injection Hn as <-. unfold y'.
          replace (prev + wr (y - prev) - prev) with (wr (y - prev)) by lra. apply Rabs_le. apply Hb.
        * exact (C i a b Ha Hn).
      + intros [|i] a b Ha Hn.
        * simpl in Ha, Hn. injection Ha as <-. injection Hn as <-. destruct (Hs (y - prev)) as [k E].
          exists k. unfold y'. rewrite E. lra.
        * exact (S' i a b Ha Hn). }
  destruct (G ys y) as (L & C & S'). split; [simpl; now rewrite L|]. split; [exact C|]. split; [|intros a E; exact E].
  intros [|i] a b Ha Hn; [|exact (S' i a b Ha Hn)].
  simpl in Ha, Hn. exists 0%Z. assert (a = b) by congruence. subst. lra.
Qed.

(** There is such a function. *)
Example C102_wrap_example : exists wrap_to_pi : R -> R,
  (forall a, - PI <= wrap_to_pi a <= PI) /\ (forall a, same_angle (wrap_to_pi a) a).
Proof.
  exists (fun a => a - 2 * PI * IZR (up (a / (2 * PI) - 1 / 2))). assert (P := PI_RGT_0). split; intro a.
  - destruct (archimed (a / (2 * PI) - 1 / 2)) as [A B]. set (k := IZR (up _)) in *. clearbody k.
    assert (E : a = 2 * PI * (a / (2 * PI))) by (field; lra). set (t := a / (2 * PI)) in *. clearbody t. subst a. nra.
  - exists (- up (a / (2 * PI) - 1 / 2))%Z. rewrite opp_IZR. ring.
Qed.

(** On a loop whose heading makes one turn [d] (1 or -1), the direction is [d]. *)
Theorem C102_direction_partial : forall wrap_to_pi yaws d first final,
  (forall a, - PI <= wrap_to_pi a <= PI) -> d = 1 \/ d = -1 ->
  nth_error (unwrap wrap_to_pi yaws) 0 = Some first ->
  nth_error (unwrap wrap_to_pi yaws) (length (unwrap wrap_to_pi yaws) - 1) = Some final ->
  final - first + wrap_to_pi (first - final) = 2 * PI * d ->
  track_direction wrap_to_pi yaws = d.
Proof.
  intros wr yaws d a b Hb Hd Ha Hl H. unfold track_direction.
  rewrite (nth_error_nth _ _ 0 Ha), (last_nth_error _ _ 0 _ Hl).
  assert (P := PI_RGT_0). specialize (Hb (a - b)).
  destruct Hd as [-> | ->]; destruct (Rlt_dec a b); try reflexivity; lra.
Qed.

Example C102_direction_example : forall wrap_to_pi : R -> R, wrap_to_pi 2 = 2 -> wrap_to_pi (4 - 2) = 2 ->
  wrap_to_pi (2 - 0) = 2 -> track_direction wrap_to_pi [0; 2; 4] = 1.
Proof.
  intros wr H2 H4 H20. unfold track_direction, unwrap, unwrap_from. cbn [nth last]. rewrite H20, Rplus_0_l, H4.
  destruct (Rlt_dec 0 (2 + 2)); [reflexivity|lra].
Qed.

(** The direction is never zero: on a track with no net turn (a figure of eight), the closing
    constraint asks for a whole turn within the closing element. When the bounds on the yaw
    rate do not allow it, no vector inside of the bounds meets the constraints. *)
Theorem C102_figure_of_eight_refuted : forall closest el w gs ds last_ds left_curve right_curve center_curve wrap_to_pi x
    objective constraints tol g0 g1,
  let direction := track_direction wrap_to_pi (map g_yaw gs) in
  nth_error gs 0 = Some g0 -> nth_error gs (length gs - 1) = Some g1 -> Rabs (g_yaw g1 - g_yaw g0) <= PI ->
  S (length ds) = length gs -> 0 < last_ds -> 1.11 * last_ds * max_yaw_dot w + tol < 2 * PI / 3 ->
  in_box (lower_vector el w gs) x (upper_vector el w gs) ->
  left_curve <> [] -> right_curve <> [] ->
  fg closest true el w (S (length ds)) (length gs) (ds ++ [last_ds]) left_curve right_curve center_curve direction x = Ok (objective, constraints) ->
  ~ Forall (fun e => Rabs e <= tol) constraints.
Proof.
  intros cl el w gs ds ld lc rc cc wr x obj cons tol g0 g1 dir H0 H1 Hyaw Hds Hld Hsmall Hbox Hl Hr Hfg Hc.
  assert (Hdir : dir = 1 \/ dir = -1) by (unfold dir, track_direction; destruct (Rlt_dec _ _); auto). clearbody dir.
  assert (HN : (1 <= length gs)%nat) by lia.
  pose proof Hbox as (Lb & _ & _). rewrite lower_length in Lb.
  assert (L : (0 < length lc)%nat) by (destruct lc; [congruence|simpl; lia]).
  assert (L' : (0 < length rc)%nat) by (destruct rc; [congruence|simpl; lia]).
  destruct (nth_error_ex _ lc 0 L) as (lf & Hlf). destruct (nth_error_ex _ rc 0 L') as (rf & Hrf).
  destruct (nth_error_ex _ lc (length lc - 1)) as (lb & Hlb); [lia|].
  destruct (nth_error_ex _ rc (length rc - 1)) as (rb & Hrb); [lia|].
  pose proof (fg_eq cl true el w (length gs) ds ld lc rc cc dir x lf rf lb rb (eq_sym Lb) HN Hds Hlf Hrf Hlb Hrb) as E.
  unfold all_ds in E. rewrite app_length in E. simpl length in E. rewrite Nat.add_1_r in E.
  rewrite E in Hfg. injection Hfg as _ <-.
  apply Forall_app in Hc. destruct Hc as [_ Hc]. apply Forall_app in Hc. destruct Hc as [Hcl _].
  destruct (nd_is cl el (length gs) lc rc cc x (length gs - 1) ltac:(lia)) as (a1 & b1 & c1 & E1).
  destruct (nd_is cl el (length gs) lc rc cc x 0 ltac:(lia)) as (a2 & b2 & c2 & E2).
  rewrite E1, E2 in Hcl.
  rewrite Forall_forall in Hcl. unfold element_defects in Hcl.
  assert (Hin : In (st_yaw el) (seq 0 (n_states el))) by (apply in_seq; destruct el; simpl; lia).
  specialize (Hcl _ (in_map _ _ _ Hin)). cbv beta in Hcl.
  rewrite Nat.eqb_refl in Hcl. cbn [nq ndq] in Hcl.
  assert (Eq : forall q u, at_ (equations el q u) (st_yaw el) = at_ q (st_yaw_dot el)) by (intros; destruct el; reflexivity).
  rewrite !Eq in Hcl.
  rewrite !point_state in Hcl by (destruct el; simpl; lia).
  pose proof (box_point el w gs x _ _ Hbox H0 (st_yaw el) ltac:(destruct el; simpl; lia)) as Y0.
  pose proof (box_point el w gs x _ _ Hbox H1 (st_yaw el) ltac:(destruct el; simpl; lia)) as Y1.
  pose proof (box_point el w gs x _ _ Hbox H0 (st_yaw_dot el) ltac:(destruct el; simpl; lia)) as K0.
  pose proof (box_point el w gs x _ _ Hbox H1 (st_yaw_dot el) ltac:(destruct el; simpl; lia)) as K1.
  pose proof (box_factor _ _ _ _ Hbox) as Hf.
  replace (nth (st_yaw el) (lower_point el w g0) 0) with (g_yaw g0 - 30 * DEG) in Y0 by (destruct el; reflexivity).
  replace (nth (st_yaw el) (upper_point el w g0) 0) with (g_yaw g0 + 30 * DEG) in Y0 by (destruct el; reflexivity).
  replace (nth (st_yaw el) (lower_point el w g1) 0) with (g_yaw g1 - 30 * DEG) in Y1 by (destruct el; reflexivity).
  replace (nth (st_yaw el) (upper_point el w g1) 0) with (g_yaw g1 + 30 * DEG) in Y1 by (destruct el; reflexivity).
  replace (nth (st_yaw_dot el) (lower_point el w g0) 0) with (- max_yaw_dot w) in K0 by (destruct el; reflexivity).
  replace (nth (st_yaw_dot el) (upper_point el w g0) 0) with (max_yaw_dot w) in K0 by (destruct el; reflexivity).
  replace (nth (st_yaw_dot el) (lower_point el w g1) 0) with (- max_yaw_dot w) in K1 by (destruct el; reflexivity).
  replace (nth (st_yaw_dot el) (upper_point el w g1) 0) with (max_yaw_dot w) in K1 by (destruct el; reflexivity).
  set (y0 := nth (1 + (n_states el + n_ctrls el) * 0 + st_yaw el) x 0) in *.
  set (y1 := nth (1 + (n_states el + n_ctrls el) * (length gs - 1) + st_yaw el) x 0) in *.
  set (k0 := nth (1 + (n_states el + n_ctrls el) * 0 + st_yaw_dot el) x 0) in *.
  set (k1 := nth (1 + (n_states el + n_ctrls el) * (length gs - 1) + st_yaw_dot el) x 0) in *.
  set (f := the_factor x) in *. set (m := max_yaw_dot w) in *. clearbody y0 y1 k0 k1 f m. unfold DEG in *.
  assert (P := PI_RGT_0). apply Rabs_le_both in Hcl. apply Rabs_le_both in Hyaw.
  assert (Hfd : 0 < f * ld <= 1.11 * ld) by nra.
  assert (M0 : 0 <= m) by lra.
  assert (B : - (1.11 * ld * m) <= 0.5 * (f * ld) * (k1 + k0) <= 1.11 * ld * m).
  { set (t := f * ld) in *. clearbody t. assert (Hk : -(2 * m) <= k1 + k0 <= 2 * m) by lra.
    set (k := k1 + k0) in *. clearbody k.
    assert (T1 : t * m <= 1.11 * ld * m) by (apply Rmult_le_compat_r; lra).
    assert (T2 : 0.5 * t * k <= 0.5 * t * (2 * m)) by (apply Rmult_le_compat_l; lra).
    assert (T3 : 0.5 * t * (-(2 * m)) <= 0.5 * t * k) by (apply Rmult_le_compat_l; lra). lra. }
  destruct Hdir as [-> | ->]; lra.
Qed.
Example C102_figure_of_eight_example :
  let g := Guess 0 0 0 0 0 0 0 0 0 5 5 0 0 0 0 0 in let w := Weights 1 1 1 1 1 1 0.1 1 1 in
  let x := [1; 0; 0; 0; 0; 5; 5; 0; 0; 0; 0; 0; 0; 0; 5; 5; 0; 0; 0] in
  in_box (lower_vector false w [g; g]) x (upper_vector false w [g; g]) /\
  1.11 * 1 * max_yaw_dot w + 0 < 2 * PI / 3 /\ Rabs (g_yaw g - g_yaw g) <= PI.
Proof.
  cbv zeta. assert (P := PI_RGT_0). assert (P2 := PI2_1). split; [|split].
  - split; [reflexivity|]. split; [reflexivity|]. intros i a v b Ha Hv Hb.
    do 19 (destruct i as [|i]; [cbn in Ha, Hv, Hb; injection Ha as <-; injection Hv as <-; injection Hb as <-; unfold DEG; lra|]).
    destruct i; discriminate.
  - cbn. lra.
  - cbn. rewrite Rminus_0_r, Rabs_R0. lra.
Qed.

Print Assumptions C97_all_reads_in_range.
Print Assumptions C97_solution_is_a_road.
Print Assumptions C97_boundaries.
Print Assumptions C98_objective_partial.
Print Assumptions C98_objective_of_circuit_partial.
Print Assumptions C98_closing_element_refuted.
Print Assumptions C98_open_distance_refuted.
Print Assumptions C99_start_vector_is_the_estimate.
Print Assumptions C99_returned_circuit_in_bounds.
Print Assumptions C99_narrow_track_refuted.
Print Assumptions C100_gps_round_trip.
Print Assumptions C100_origin_and_axes.
Print Assumptions C100_meridian_refuted.
Print Assumptions C100_breakpoint_altitude_refuted.
Print Assumptions C101_trimmed_boundary_partial.
Print Assumptions C101_inside_partial.
Print Assumptions C101_on_segment_partial.
Print Assumptions C101_end_altitude_refuted.
Print Assumptions C101_first_node_refuted.
Print Assumptions C101_finish_behind_start_refuted.
Print Assumptions C102_yaw_continuous.
Print Assumptions C102_direction_partial.
Print Assumptions C102_figure_of_eight_refuted.
