(** Tracks made of straights and corners. *)
From Coq Require Import Reals String Lra Lia.
From Coquelicot Require Import Coquelicot.
From Coq Require Import List.
From Verif Require Import M_Vec M_Controls M_Arcs S_Road S_Arcs L_Road L_Arcs L_Arcs2 L_Arcs3.
Import ListNotations.
Local Open Scope R_scope.

(** C45. Proper segments are always accepted, and the track starts at the origin heading
    along x. *)
Theorem C45_accepted : forall scale width closed children, children <> [] -> Forall (proper scale) children ->
  exists t, build scale width closed children = Ok t /\
    (Forall (not_huge scale) children -> reported m_r t 0 = vzero /\ reported m_dr t 0 = V 1 0 0) /\
    (forall s, arcs_limit t s = scale * width / 2).
Proof.
  intros scale width closed children Hne Hp. destruct (build_ok scale width closed children Hne Hp) as [t E].
  exists t. split; [exact E|]. split.
  - intros Hh. destruct (built _ _ _ _ _ Hne Hp E) as (F & Ln & U & Lk & _). specialize (Lk Hh).
    rewrite !reported_along by (eapply nonempty; eassumption).
    destruct (a_segments t) as [|g l]; [destruct F|]. destruct F as (F1 & F2 & F3).
    assert (E0 : along (g :: l) 0 = segment_at g (g_s g)) by (rewrite <- (along_start g l Lk); now rewrite F3).
    rewrite E0. inversion U as [|x y Ud _]; subst x y.
    destruct (segment_starts g Ud) as [P1 P2]. rewrite P1, P2. now split.
  - intros s. unfold build in E. destruct (lay _ _ _ _ _ _ _ _); cbn in E; [|discriminate|discriminate].
    injection E as <-. unfold arcs_limit; cbn. field.
Qed.

(** C45. At every arclength, joints included, the position is differentiable and its
    derivative is the reported tangent, which is a continuous horizontal unit vector. *)
Theorem C45_smooth_partial : forall scale width closed children t, children <> [] ->
  Forall (proper scale) children -> Forall (not_huge scale) children ->
  build scale width closed children = Ok t -> forall s,
  vderive (reported m_r t) s (reported m_dr t s) /\
  vcontinuous (reported m_r t) s /\ vcontinuous (reported m_dr t) s.
Proof.
  intros scale width closed children t Hne Hp Hh B s.
  destruct (built _ _ _ _ _ Hne Hp B) as (F & Ln & U & Lk & _). specialize (Lk Hh).
  pose proof (nonempty _ _ Ln Hne) as N.
  assert (A : vderive (reported m_r t) s (reported m_dr t s)).
  { rewrite reported_along by exact N. eapply vderive_ext'; [|apply (along_derive _ Lk s)].
    intros x. now rewrite reported_along. }
  split; [exact A|]. split; [exact (vderive_continuous _ _ _ A)|].
  eapply vcontinuous_ext_loc; [|apply (along_turning _ Lk s)]. apply filter_forall. intros x. now rewrite reported_along.
Qed.

(** C45. The tangent has unit length everywhere, whatever the radii. *)
Theorem C45_unit_tangent : forall scale width closed children t, children <> [] ->
  Forall (proper scale) children -> build scale width closed children = Ok t -> forall s,
  norm (reported m_dr t s) = 1 /\ vz (reported m_dr t s) = 0.
Proof.
  intros scale width closed children t Hne Hp B s.
  destruct (built _ _ _ _ _ Hne Hp B) as (F & Ln & U & _). pose proof (nonempty _ _ Ln Hne) as N.
  rewrite reported_along by exact N. destruct (along_in _ s N) as (g & I & ->).
  eapply Forall_forall in U; [|exact I]. pose proof (segment_unit g U s) as Q.
  split; [now apply flat_unit_norm | apply Q].
Qed.

(** C45. Inside of every straight and corner the tangent turns with the declared
    curvature: it is 1/R in absolute value, negative to the left, and zero on straights.
    The reported acceleration and jerk are the next derivatives. *)
Theorem C45_curvature_partial : forall scale width closed children t i c s,
  Forall (proper scale) children -> Forall (not_huge scale) children ->
  build scale width closed children = Ok t -> inside scale children i s -> nth_error children i = Some c ->
  vderive (reported m_dr t) s (reported m_d2r t s) /\
  reported m_d2r t s = vscale (declared_curvature scale c) (turned (reported m_dr t s)) /\
  vderive (reported m_d2r t) s (reported m_d3r t s).
Proof.
  intros scale width closed children t i c s Hp Hh B Hi Hc.
  destruct (inside_along _ _ _ _ _ _ _ _ Hp Hh B Hi Hc) as (g & Hd & Hk & Loc).
  assert (Hne : children <> []) by (intros ->; destruct Hi; cbn in *; lia).
  destruct (built _ _ _ _ _ Hne Hp B) as (_ & Ln & _). pose proof (nonempty _ _ Ln Hne) as N.
  rewrite !reported_along by exact N. pose proof (locally_singleton _ _ Loc) as Es. cbv beta in Es. rewrite Es.
  split; [|split].
  - eapply vderive_ext_loc; [|apply (segment_derive2 g Hd s)].
    eapply filter_imp; [|exact Loc]. cbn. intros x Hx. rewrite reported_along by exact N. now rewrite Hx.
  - rewrite (segment_curvature g Hd s). destruct (Rlt_dec _ _) as [K|K]; [|now rewrite Hk].
    f_equal. rewrite Hk in K. unfold declared_curvature in *.
    destruct (String.eqb (n_name c) "straight") eqn:Es'; [reflexivity|]. exfalso.
    assert (Pc : proper scale c) by (eapply Forall_forall in Hp; [exact Hp | eapply nth_error_In; exact Hc]).
    assert (Hc' : not_huge scale c) by (eapply Forall_forall in Hh; [exact Hh | eapply nth_error_In; exact Hc]).
    destruct Pc as [[Nm _]|[Nm [HR _]]]; [rewrite Nm in Es'; discriminate|].
    exact (corner_not_small scale c HR (Hc' Nm) K).
  - eapply vderive_ext_loc; [|apply (segment_derive3 g Hd s)].
    eapply filter_imp; [|exact Loc]. cbn. intros x Hx. rewrite reported_along by exact N. now rewrite Hx.
Qed.

(** C45. The total length of an open track is the sum of the declared lengths. *)
Theorem C45_length : forall scale width children t, children <> [] -> Forall (proper scale) children ->
  build scale width false children = Ok t -> a_total t = start_of scale children (length children).
Proof.
  intros scale width children t Hne Hp B. destruct (built _ _ _ _ _ Hne Hp B) as (_ & _ & _ & _ & _ & T).
  unfold start_of. rewrite firstn_all. now apply T.
Qed.

(** C45. The reported yaw is the angle of the tangent, and its derivative is the declared
    curvature inside of every segment. *)
Theorem C45_yaw_partial : forall scale width closed children t i c s,
  Forall (proper scale) children -> Forall (not_huge scale) children ->
  build scale width closed children = Ok t -> inside scale children i s -> nth_error children i = Some c ->
  exists r yaw dyaw, frenet t s = Ok (r, yaw, dyaw) /\ r = reported m_r t s /\
    reported m_dr t s = V (cos yaw) (sin yaw) 0 /\ dyaw = declared_curvature scale c.
Proof.
  intros scale width closed children t i c s Hp Hh B Hi Hc.
  destruct (C45_curvature_partial _ _ _ _ _ _ _ _ Hp Hh B Hi Hc) as (_ & E & _).
  assert (Hne : children <> []) by (intros ->; destruct Hi; cbn in *; lia).
  destruct (built _ _ _ _ _ Hne Hp B) as (_ & Ln & U & _). pose proof (nonempty _ _ Ln Hne) as N.
  rewrite !reported_along in * by exact N.
  unfold frenet. rewrite arcs_at_along by exact N. cbn [bind].
  assert (Q : flat_unit (m_dr (along (a_segments t) s))).
  { destruct (along_in _ s N) as (g & I & ->). eapply Forall_forall in U; [|exact I]. apply (segment_unit g U s). }
  set (m := along (a_segments t) s) in *. destruct Q as [Q1 Q2].
  destruct (atan2_unit _ _ Q1) as [A1 A2].
  eexists _, _, _. split; [reflexivity|]. split; [reflexivity|]. split.
  - rewrite A1, A2. apply vec_ext; cbn; [reflexivity | reflexivity | exact Q2].
  - rewrite E. unfold dot, vscale, turned; cbn. rewrite Q2.
    replace (vx (m_dr m) * vx (m_dr m) + vy (m_dr m) * vy (m_dr m) + 0 * 0) with 1 by lra.
    transitivity (declared_curvature scale c * (vx (m_dr m) * vx (m_dr m) + vy (m_dr m) * vy (m_dr m))); [field | rewrite Q1; ring].
Qed.

(** C45. A point that moves sideways by w(s): the reported velocity and acceleration are
    its first and second derivatives. *)
Theorem C45_offset_partial : forall scale width closed children t i c s (w dw d2w : R -> R),
  Forall (proper scale) children -> Forall (not_huge scale) children ->
  build scale width closed children = Ok t -> inside scale children i s -> nth_error children i = Some c ->
  (forall x, is_derive w x (dw x)) -> (forall x, is_derive dw x (d2w x)) ->
  exists r v a : R -> vec, (forall x, position_at t x (w x) (dw x) (d2w x) = Ok (r x, v x, a x)) /\
    vderive r s (v s) /\ vderive v s (a s).
Proof.
  intros scale width closed children t i c s w dw d2w Hp Hh B Hi Hc Hw Hdw.
  destruct (C45_curvature_partial _ _ _ _ _ _ _ _ Hp Hh B Hi Hc) as (D2 & _ & D3).
  assert (Hne : children <> []) by (intros ->; destruct Hi; cbn in *; lia).
  destruct (C45_smooth_partial _ _ _ _ _ Hne Hp Hh B s) as (D1 & _).
  destruct (built _ _ _ _ _ Hne Hp B) as (_ & Ln & U & _). pose proof (nonempty _ _ Ln Hne) as N.
  set (f := reported m_r t) in *. set (f1 := reported m_dr t) in *. set (f2 := reported m_d2r t) in *. set (f3 := reported m_d3r t) in *.
  exists (fun x => vadd (f x) (vscale (w x) (turned (f1 x)))),
    (fun x => vadd (vadd (f1 x) (vscale (w x) (turned (f2 x)))) (vscale (dw x) (turned (f1 x)))),
    (fun x => vadd (vadd (vadd (f2 x) (vscale (w x) (turned (f3 x)))) (vscale (2 * dw x) (turned (f2 x)))) (vscale (d2w x) (turned (f1 x)))).
  split.
  { intros x. unfold position_at, f, f1, f2, f3. rewrite !reported_along by exact N. rewrite arcs_at_along by exact N. reflexivity. }
  assert (T1 : vderive (fun x => turned (f1 x)) s (turned (f2 s))).
  { destruct D2 as (A & E & _). split; [|split]; cbn; [apply @is_derive_opp, E | exact A | apply @is_derive_const]. }
  assert (T2 : vderive (fun x => turned (f2 x)) s (turned (f3 s))).
  { destruct D3 as (A & E & _). split; [|split]; cbn; [apply @is_derive_opp, E | exact A | apply @is_derive_const]. }
  split.
  - eapply vderive_eq; [apply vderive_add; [exact D1 | apply (vderive_scale w _ s); [apply Hw | exact T1]]|].
    cbn beta. unfold vadd; cbn. f_equal; ring.
  - eapply vderive_eq.
    { apply vderive_add; [apply vderive_add; [exact D2 | apply (vderive_scale w _ s); [apply Hw | exact T2]] | apply (vderive_scale dw _ s); [apply Hdw | exact T1]]. }
    cbn beta. unfold vadd, vscale; cbn. f_equal; ring.
Qed.

(** C45 is false for radii above 10^10: such a corner is followed as a straight, and the
    track jumps where the corner ends. *)
Theorem C45_refuted : exists children t s, children <> [] /\ Forall (proper 1) children /\
  build 1 10 false children = Ok t /\ ~ vcontinuous (reported m_r t) s.
Proof.
  set (R0 := 2 * 10 ^ 10).
  assert (HR : 0 < R0) by (unfold R0; apply Rmult_lt_0_compat; [lra | apply pow_lt; lra]).
  assert (HR1 : 100 < R0) by (unfold R0; simpl; lra).
  set (ch := [MkNode "corner" 0 R0 (PI / 2) "right"; MkNode "straight" 1 0 0 ""]).
  assert (Hp : Forall (proper 1) ch).
  { constructor; [right; cbn; split; [reflexivity|]; split; [lra | pose proof PI_RGT_0; lra]|].
    constructor; [left; cbn; split; [reflexivity | lra] | constructor]. }
  destruct (build_ok 1 10 false ch ltac:(discriminate) Hp) as [t B].
  exists ch, t, (R0 * (PI / 2)). split; [discriminate|]. split; [exact Hp|]. split; [exact B|].
  assert (Sm : Rabs (1 / (1 * R0)) < 1 / 10 ^ 10).
  { rewrite Rmult_1_l, Rabs_right by (apply Rgt_ge, Rdiv_lt_0_compat; lra). unfold Rdiv. rewrite !Rmult_1_l.
    apply Rinv_lt_contravar; [|unfold R0; lra]. apply Rmult_lt_0_compat; [apply pow_lt; lra | exact HR]. }
  unfold build, ch in B. cbn [lay n_name String.eqb Ascii.eqb Bool.eqb bind fst snd corner_curvature n_direction n_radius n_sweep n_length] in B.
  unfold corner_curvature in B. cbn [n_direction n_radius String.eqb Ascii.eqb Bool.eqb] in B.
  injection B as <-. unfold vcontinuous, reported, arcs_at. cbn [a_segments find_segment]. cbn [g_s].
  intros [C _]. replace (0 + 1 * R0 * (PI / 2)) with (R0 * (PI / 2)) in C by ring.
  assert (Kp : 0 < / (1 * R0)) by (apply Rinv_0_lt_compat; lra).
  pose proof PI2_3_2 as Hpi.
  apply continuity_pt_filterlim in C. destruct (C 1 Rlt_0_1) as (al & Hal & D). cbn in D.
  set (h := Rmin (al / 2) 1). assert (Hh : 0 < h) by (apply Rmin_pos; lra).
  assert (Hh1 : h <= 1) by apply Rmin_r. assert (Hh2 : h <= al / 2) by apply Rmin_l.
  specialize (D (R0 * (PI / 2) - h)). unfold R_dist in D.
  assert (G1 : R0 * (PI / 2) <> R0 * (PI / 2) - h) by lra.
  assert (G2 : Rabs (R0 * (PI / 2) - h - R0 * (PI / 2)) < al).
  { replace (R0 * (PI / 2) - h - R0 * (PI / 2)) with (- h) by ring. rewrite Rabs_Ropp, Rabs_right by lra. lra. }
  assert (D' := D (conj (conj I G1) G2)).
  clear D. destruct (Rlt_dec (R0 * (PI / 2) - h) (R0 * (PI / 2))) as [_|Q] in D'; [|lra].
  destruct (Rlt_dec (R0 * (PI / 2)) (R0 * (PI / 2))) as [Q|_] in D'; [lra|].
  rewrite !segment_straight in D' by (cbn [g_k]; first [exact Sm | rewrite Rabs_R0; apply ten10]).
  cbn [line m_r g_point g_dir g_s vadd vscale vx] in D'.
  rewrite cos_PI2, sin_PI2 in D'.
  assert (N1 : norm (V 1 0 0) = 1) by (apply flat_unit_norm, start_unit).
  rewrite N1 in D'. cbn in D'. rewrite Rinv_1 in D'.
  apply Rabs_def2 in D'. destruct D' as [D1 D2]. nra.
Qed.

(** A track with turns to both sides meets the hypotheses above. *)
Definition sample : list node :=
  [MkNode "straight" 100 0 0 ""; MkNode "corner" 0 50 (PI / 2) "right"; MkNode "straight" 30 0 0 ""; MkNode "corner" 0 20 1 "left"].
Lemma pi_big : 3 < PI. Proof. pose proof PI2_3_2. lra. Qed.
Example C45_sample : Forall (proper 2) sample /\ Forall (not_huge 2) sample /\
  inside 2 sample 0 (-1) /\ inside 2 sample 1 210 /\ inside 2 sample 2 (200 + 100 * (PI / 2) + 1) /\ inside 2 sample 3 1000 /\
  declared_curvature 2 (nth 1 sample (MkNode "" 0 0 0 "")) = 1 / 100 /\
  declared_curvature 2 (nth 3 sample (MkNode "" 0 0 0 "")) = - (1 / 40).
Proof.
  pose proof pi_big. pose proof PI_4.
  split; [|split; [|split; [|split; [|split; [|split; [|split]]]]]].
  - unfold sample. repeat apply Forall_cons; try apply Forall_nil; unfold proper; cbn; [left | right | left | right]; repeat split; lra.
  - unfold sample. repeat apply Forall_cons; try apply Forall_nil; unfold not_huge; cbn; intros; try discriminate; lra.
  - unfold inside; cbn. split; [lia|]. split; [intros N; now contradiction N | intros _; cbn; lra].
  - unfold inside; cbn. split; [lia|]. split; intros _; cbn; nra.
  - unfold inside; cbn. split; [lia|]. split; intros _; cbn; nra.
  - unfold inside; cbn. split; [lia|]. split; [intros _; cbn; nra | intros N; now contradiction N].
  - cbn. field.
  - cbn. field.
Qed.

(** C74. When the declared segments lead back to the start, the closed track has the length
    of the open one and its end is its start. *)
Theorem C74_closed_partial : forall scale width children tc to, children <> [] -> Forall (proper scale) children ->
  Forall (not_huge scale) children ->
  build scale width true children = Ok tc -> build scale width false children = Ok to ->
  reported m_r to (start_of scale children (length children)) = reported m_r to 0 ->
  a_total tc = start_of scale children (length children) /\ reported m_r tc (a_total tc) = reported m_r tc 0.
Proof.
  intros scale width children tc to Hne Hp Hh Bc Bo Hz.
  destruct (closed_closes _ _ _ _ _ Hne Hp Hh Bc Bo) as [E T].
  destruct (C45_accepted scale width false children Hne Hp) as (t' & B' & P' & _). rewrite Bo in B'. injection B' as <-.
  destruct (P' Hh) as [Z _].
  pose proof (C45_length _ _ _ _ Hne Hp Bo) as Lo.
  destruct (built _ _ _ _ _ Hne Hp Bo) as (_ & Ln & _). pose proof (nonempty _ _ Ln Hne) as N.
  assert (N' : a_segments tc <> []) by now rewrite E.
  rewrite Z in Hz. rewrite <- Lo in Hz. rewrite reported_along in Hz by exact N.
  specialize (T Hz). split; [now rewrite T|].
  rewrite reported_along, E, T, Hz by exact N'. rewrite reported_along by exact N'. rewrite E.
  rewrite reported_along in Z by exact N. now rewrite Z.
Qed.

(** The hypotheses are met by a stadium that starts and ends in the middle of a straight. *)
Definition stadium : list node :=
  [MkNode "straight" 1 0 0 ""; MkNode "corner" 0 1 PI "right"; MkNode "straight" 2 0 0 "";
   MkNode "corner" 0 1 PI "right"; MkNode "straight" 1 0 0 ""].
Lemma half_turn d p : flat_unit d ->
  vadd (vsub p (vdiv (vopp (turned d)) (1 / (1 * 1))))
     (vscale (1 * 1) (vadd (vscale (cos PI) (vdiv (vdiv (vopp (turned d)) (1 / (1 * 1))) (norm (vdiv (vopp (turned d)) (1 / (1 * 1))))))
        (vscale (sin PI) (vdiv d (norm d))))) = vadd p (vscale 2 (turned d)) /\
  vsub (vscale (cos PI) (vdiv d (norm d))) (vscale (sin PI) (vdiv (vdiv (vopp (turned d)) (1 / (1 * 1))) (norm (vdiv (vopp (turned d)) (1 / (1 * 1)))))) = vopp d.
Proof.
  intros Hd. rewrite cos_PI, sin_PI, (flat_unit_norm _ Hd).
  replace (norm (vdiv (vopp (turned d)) (1 / (1 * 1)))) with 1.
  - unfold vdiv, vscale, vadd, vsub, vopp, turned; cbn. split; f_equal; field.
  - symmetry. apply flat_unit_norm. destruct Hd as [H Hz]. split; cbn; [|field].
    transitivity (vx d * vx d + vy d * vy d); [field | exact H].
Qed.
Example C74_sample : Forall (proper 1) stadium /\ Forall (not_huge 1) stadium /\
  exists to, build 1 10 false stadium = Ok to /\ reported m_r to (start_of 1 stadium (length stadium)) = reported m_r to 0.
Proof.
  pose proof pi_big as Hpi.
  assert (Hp : Forall (proper 1) stadium).
  { unfold stadium. repeat apply Forall_cons; try apply Forall_nil; unfold proper; cbn; [left | right | left | right | left]; repeat split; lra. }
  assert (Hh : Forall (not_huge 1) stadium).
  { unfold stadium. repeat apply Forall_cons; try apply Forall_nil; unfold not_huge; cbn; intros; try discriminate; lra. }
  split; [exact Hp|]. split; [exact Hh|].
  destruct (build_ok 1 10 false stadium ltac:(discriminate) Hp) as [t B]. exists t. split; [exact B|].
  destruct (C45_accepted 1 10 false stadium ltac:(discriminate) Hp) as (t' & B' & P' & _). rewrite B in B'. injection B' as <-.
  destruct (P' Hh) as [Z _]. rewrite Z. clear Z P' Hp Hh.
  unfold build, stadium in B. cbn [lay n_name String.eqb Ascii.eqb Bool.eqb bind fst snd n_direction n_radius n_sweep n_length] in B.
  unfold corner_curvature in B. cbn [n_direction n_radius String.eqb Ascii.eqb Bool.eqb] in B.
  destruct (half_turn (V 1 0 0) (vadd vzero (vscale (1 * 1) (V 1 0 0))) start_unit) as [H1 H2]. rewrite H1, H2 in B.
  assert (U' : flat_unit (vopp (V 1 0 0))) by (split; cbn; ring).
  destruct (half_turn (vopp (V 1 0 0)) (vadd (vadd (vadd vzero (vscale (1 * 1) (V 1 0 0))) (vscale 2 (turned (V 1 0 0)))) (vscale (1 * 2) (vopp (V 1 0 0)))) U') as [H3 H4].
  rewrite H3, H4 in B. injection B as <-. unfold reported, arcs_at, start_of, stadium.
  cbn [a_segments find_segment g_s length firstn map fold_right].
  unfold declared_length. cbn [n_name n_length n_radius n_sweep String.eqb Ascii.eqb Bool.eqb].
  destruct (Rlt_dec _ _) as [Q|_]; [nra|]. destruct (Rlt_dec _ _) as [Q|_]; [nra|].
  destruct (Rlt_dec _ _) as [Q|_]; [nra|]. destruct (Rlt_dec _ _) as [Q|_]; [nra|].
  rewrite segment_straight by (cbn [g_k]; rewrite Rabs_R0; apply ten10). cbn [line m_r g_point g_dir g_s].
  apply vec_ext; cbn; ring.
Qed.

(** C74 is false in general: a closed track that ends with a straight is accepted although
    the straight does not lead to the start, and its last point is elsewhere. *)
Theorem C74_refuted : exists children t, children <> [] /\ Forall (proper 1) children /\ Forall (not_huge 1) children /\
  build 1 10 true children = Ok t /\ reported m_r t (a_total t) <> reported m_r t 0.
Proof.
  set (ch := [MkNode "straight" 1 0 0 ""; MkNode "corner" 0 1 (PI / 2) "right"; MkNode "straight" 1 0 0 ""]).
  assert (Hp : Forall (proper 1) ch).
  { pose proof PI_RGT_0. repeat apply Forall_cons; try apply Forall_nil; unfold proper; cbn; [left | right | left]; repeat split; lra. }
  assert (Hh : Forall (not_huge 1) ch).
  { repeat apply Forall_cons; try apply Forall_nil; unfold not_huge; cbn; intros; try discriminate; lra. }
  destruct (build_ok 1 10 true ch ltac:(discriminate) Hp) as [t B].
  destruct (C45_accepted 1 10 true ch ltac:(discriminate) Hp) as (t' & B' & P' & _). rewrite B in B'. injection B' as <-.
  destruct (P' Hh) as [Z _].
  exists ch, t. split; [discriminate|]. split; [exact Hp|]. split; [exact Hh|]. split; [exact B|]. rewrite Z. clear Z P' Hp Hh.
  unfold build, ch in B. cbn [lay n_name String.eqb Ascii.eqb Bool.eqb bind fst snd n_direction n_radius n_sweep n_length] in B.
  unfold corner_curvature in B. cbn [n_direction n_radius String.eqb Ascii.eqb Bool.eqb] in B.
  injection B as <-. unfold reported, arcs_at. cbn [a_segments a_total find_segment g_s].
  assert (N1 : norm (V 1 0 0) = 1) by apply (flat_unit_norm _ start_unit).
  pose proof pi_big as Hpi.
  match goal with |- context [norm (vsub ?p vzero)] => set (q := norm (vsub p vzero)) end.
  assert (Hq : 0 <= q) by apply sqrt_pos.
  destruct (Rlt_dec _ _) as [Q|_]; [lra|]. destruct (Rlt_dec _ _) as [Q|_]; [lra|].
  rewrite segment_straight by (cbn [g_k]; rewrite Rabs_R0; apply ten10). cbn [line m_r g_point g_dir g_s].
  intros E. apply (f_equal vx) in E. revert E. rewrite cos_PI2, sin_PI2, N1.
  replace (norm (vdiv (vopp (turned (V 1 0 0))) (1 / (1 * 1)))) with 1.
  - cbn. rewrite Rinv_1. intros E. field_simplify in E. lra.
  - symmetry. apply flat_unit_norm. split; cbn; field.
Qed.

(** C75. An unknown segment makes the construction throw when it is not the last. *)
Theorem C75_unknown_rejected_partial : forall scale width closed before c after,
  Forall (fun x => n_name x = "straight" \/ n_name x = "corner")%string before ->
  n_name c <> "straight"%string -> n_name c <> "corner"%string -> after <> [] ->
  build scale width closed (before ++ c :: after) = Throw.
Proof.
  intros scale width closed before c after Hb N1 N2 Ha.
  assert (H : forall first p d s total, lay scale closed first p d s total (before ++ c :: after) = Throw).
  { induction before as [|b before IH]; intros first p d s total.
    - destruct after as [|a after]; [contradiction|]. cbn [app]. rewrite lay_cons.
      apply String.eqb_neq in N1. apply String.eqb_neq in N2. now rewrite N1, N2.
    - inversion Hb as [|x y Hx Hr]; subst x y. specialize (IH Hr).
      assert (exists e rest, before ++ c :: after = e :: rest) as (e & rest & E) by (destruct before; cbn; eauto).
      cbn [app]. rewrite E in *. rewrite lay_cons. destruct Hx as [-> | ->]; cbn [String.eqb Ascii.eqb Bool.eqb]; cbv zeta; now rewrite IH. }
  unfold build. now rewrite H.
Qed.
Example C75_sample : build 1 10 false [MkNode "straight" 1 0 0 ""; MkNode "bend" 0 1 1 ""; MkNode "straight" 1 0 0 ""] = Throw.
Proof.
  apply (C75_unknown_rejected_partial 1 10 false [MkNode "straight" 1 0 0 ""] _ [MkNode "straight" 1 0 0 ""]);
    [repeat constructor | discriminate | discriminate | discriminate].
Qed.

(** C75 is false of the last segment: whatever its name, the track is accepted, and the
    segment adds nothing to the length. *)
Theorem C75_refuted : forall name, name <> "straight"%string -> name <> "corner"%string -> exists t,
  build 1 10 false [MkNode "straight" 1 0 0 ""; MkNode name 5 5 1 "left"] = Ok t /\ a_total t = 1.
Proof.
  intros name N1 N2. unfold build. rewrite lay_cons. cbn [n_name String.eqb Ascii.eqb Bool.eqb lay].
  apply String.eqb_neq in N1. apply String.eqb_neq in N2. rewrite N1, N2. cbn.
  eexists. split; [reflexivity|]. cbn. ring.
Qed.

Print Assumptions C45_accepted.
Print Assumptions C45_smooth_partial.
Print Assumptions C45_unit_tangent.
Print Assumptions C45_curvature_partial.
Print Assumptions C45_length.
Print Assumptions C45_yaw_partial.
Print Assumptions C45_offset_partial.
Print Assumptions C45_refuted.
Print Assumptions C74_closed_partial.
Print Assumptions C74_refuted.
Print Assumptions C75_unknown_rejected_partial.
Print Assumptions C75_refuted.
