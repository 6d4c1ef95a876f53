(** C59: the searches for extreme accelerations only ever widen their bounds. C60: the g-g diagram.
    C90: the searches with an exact optimiser. *)
From Coq Require Import ZArith QArith Qabs Qminmax Qpower Bool Arith List Lia Lqa.
From Verif Require Import M_Controls M_Laptime M_Steady S_Steady L_Steady.
Import ListNotations.
Local Open Scope Q_scope.

Lemma div_pos a u : 0 < u -> 0 < a -> 0 < a / u.
Proof. intros. unfold Qdiv. apply Qmult_lt_0_compat; [assumption|]. now apply Qinv_lt_0_compat. Qed.

Lemma lat_box_proper u : 0 < u -> proper (lat_box u).
Proof.
  intro H. unfold proper, lat_box. cbn [lo hi].
  assert (A := div_pos 2 u H eq_refl). assert (B := div_pos 20 u H eq_refl).
  setoid_replace (- (2) / u) with (- (2 / u)) by (field; lra). lra.
Qed.
Lemma lon_min_box_is u ax : lon_min_box u ax = Box (ax / u - 10 / u) (ax / u).
Proof. unfold lon_min_box. destruct (Qlt_bool _ _); reflexivity. Qed.

(** ** C59 *)

(** The search for the maximum lateral acceleration makes between 1 and 32 attempts, starts from
    [-2, 20] m/s2 for both accelerations, both pairs of bounds only grow, and what it reports is the status and the numbers
    of the last attempt. It ends when the attempts are used up or no acceleration is close to a bound. *)
Theorem C59_lateral_search {X} (u : Q) (sv : solvers X) (d : answer X) : 0 < u ->
  exists l : list (box * box * answer X), exists b1 b2 a,
    asked (fun k p b => sv_lat sv k p (fst b) (snd b)) l /\
    (1 <= length l <= 32)%nat /\
    (exists a0, nth_error l 0 = Some (Box (- (2) / u) (20 / u), Box (- (2) / u) (20 / u), a0)) /\
    widening (map (fun s => (fst (fst s), snd s)) l) /\
    widening (map (fun s => (snd (fst s), snd s)) l) /\
    is_last l (b1, b2, a) /\
    reports u (solve_max_lat_acc u sv d) a /\
    s_ay (solve_max_lat_acc u sv d) == pt_ay (an_x a) * u /\
    (length l = 32%nat \/
     clear_of_low (1#10) (pt_ax (an_x a)) b1 /\ clear_of_high (1#10) (pt_ax (an_x a)) b1 /\
     clear_of_low (1#10) (pt_ay (an_x a)) b2 /\ clear_of_high (1#10) (pt_ay (an_x a)) b2).
Proof.
  intro Hu. assert (P := lat_box_proper u Hu).
  destruct (lat_loop_trace (sv_lat sv) 32 0 (Point (s_rest (solve u sv 0 0 None)) 0 0) _ _ P P) as (L1 & L2 & L3 & L4 & L5).
  fold (lat_attempts u sv) in *. destruct (L2 ltac:(lia)) as [a0 E0].
  assert (Hne : lat_attempts u sv <> []) by (intro C; rewrite C in E0; discriminate).
  destruct (nonempty_last _ Hne) as [[[b1 b2] a] HL].
  exists (lat_attempts u sv), b1, b2, a.
  split. { intros i [c1 c2] a1 H. apply (lat_loop_asked (sv_lat sv)) in H. exact H. }
  split. { split; [destruct (lat_attempts u sv); [congruence|simpl; lia]|exact L1]. }
  split; [now exists a0|].
  split. { split.
    - apply Forall_map. eapply Forall_impl; [|exact L4]. intros s []. assumption.
    - intros i x y. rewrite !nth_error_map. intros Hx Hy.
      destruct (nth_error _ i) eqn:E1; [|discriminate]. destruct (nth_error _ (S i)) eqn:E2; [|discriminate].
      injection Hx as <-. injection Hy as <-. destruct (L3 _ _ _ E1 E2). assumption. }
  split. { split.
    - apply Forall_map. eapply Forall_impl; [|exact L4]. intros s []. assumption.
    - intros i x y. rewrite !nth_error_map. intros Hx Hy.
      destruct (nth_error _ i) eqn:E1; [|discriminate]. destruct (nth_error _ (S i)) eqn:E2; [|discriminate].
      injection Hx as <-. injection Hy as <-. destruct (L3 _ _ _ E1 E2). assumption. }
  split; [exact HL|]. unfold solve_max_lat_acc. rewrite (last_answer_is _ d _ HL). cbn [snd].
  split; [split; [reflexivity|cbn [s_ax]; lra]|]. split; [cbn [s_ay]; lra|].
  destruct (L5 _ HL) as [E|E]; [now left|right; exact E].
Qed.

(** The same for the two searches at a given lateral acceleration: at most 8 and 30 attempts, from
    [-2, 10] m/s2 and from the 10 m/s2 below the longitudinal acceleration at the maximum lateral one. *)
Theorem C59_longitudinal_searches {X} (u : Q) (sv : solvers X) (d : answer X) ay r1 r2 : 0 < u ->
  solve_max_lon_acc u sv d ay = Ok (r1, r2) ->
  let ax_lat := s_ax (solve_max_lat_acc u sv d) in
  exists l1 b1 a1 l2 b2 a2,
    asked (sv_max sv (ay / u)) l1 /\ asked (sv_min sv (ay / u)) l2 /\
    (1 <= length l1 <= 8)%nat /\ (1 <= length l2 <= 30)%nat /\
    (exists a0, nth_error l1 0 = Some (Box (- (2) / u) (10 / u), a0)) /\
    (exists a0, nth_error l2 0 = Some (Box (ax_lat / u - 10 / u) (ax_lat / u), a0)) /\
    widening l1 /\ widening l2 /\
    is_last l1 (b1, a1) /\ is_last l2 (b2, a2) /\
    reports u r1 a1 /\ reports u r2 a2 /\ s_ay r1 = ay /\ s_ay r2 = ay /\
    (length l1 = 8%nat \/
       clear_of_low (1#100) (pt_ax (an_x a1)) b1 /\ clear_of_high (1#5) (pt_ax (an_x a1)) b1) /\
    (length l2 = 30%nat \/ s_ok r2 = true /\ clear_of_low 1 (pt_ax (an_x a2)) b2).
Proof.
  intros Hu HE. apply max_lon_inv in HE as (x0 & -> & ->).
  set (rl := solve_max_lat_acc u sv d). cbn zeta.
  assert (A := div_pos 2 u Hu eq_refl). assert (B := div_pos 10 u Hu eq_refl).
  assert (N : - (2) / u == - (2 / u)) by (field; lra).
  rewrite lon_min_box_is.
  destruct (lon_max_loop_trace (sv_max sv (ay / u)) 8 0 x0 (lon_max_box u)) as (L1 & L2 & L3 & L4 & L5);
    [simpl; rewrite N; lra|exact B|].
  destruct (lon_min_loop_trace (sv_min sv (ay / u)) 30 0 x0 (Box (s_ax rl / u - 10 / u) (s_ax rl / u))) as (M1 & M2 & M3 & M4 & M5);
    [unfold proper; cbn [lo hi]; lra|].
  assert (Q1 := lon_max_loop_asked (sv_max sv (ay / u)) 8 0 x0 (lon_max_box u)).
  assert (Q2 := lon_min_loop_asked (sv_min sv (ay / u)) 30 0 x0 (Box (s_ax rl / u - 10 / u) (s_ax rl / u))).
  set (l1 := lon_max_loop 8 0 (sv_max sv (ay / u)) x0 (lon_max_box u)) in *.
  set (l2 := lon_min_loop 30 0 (sv_min sv (ay / u)) x0 (Box (s_ax rl / u - 10 / u) (s_ax rl / u))) in *.
  destruct (L2 ltac:(lia)) as [c1 E1]. destruct (M2 ltac:(lia)) as [c2 E2].
  assert (H1 : l1 <> []) by (intro C; rewrite C in E1; discriminate).
  assert (H2 : l2 <> []) by (intro C; rewrite C in E2; discriminate).
  destruct (nonempty_last _ H1) as [[b1 a1] K1]. destruct (nonempty_last _ H2) as [[b2 a2] K2].
  exists l1, b1, a1, l2, b2, a2. rewrite (last_answer_is _ d _ K1), (last_answer_is _ d _ K2). cbn [snd].
  split; [exact Q1|]. split; [exact Q2|].
  split; [split; [destruct l1; [congruence|simpl; lia]|exact L1]|].
  split; [split; [destruct l2; [congruence|simpl; lia]|exact M1]|].
  split; [now exists c1|]. split; [now exists c2|].
  split; [split; assumption|]. split; [split; assumption|].
  split; [exact K1|]. split; [exact K2|].
  split; [split; [reflexivity|cbn [lon_solution s_ax]; lra]|]. split; [split; [reflexivity|cbn [lon_solution s_ax]; lra]|].
  split; [reflexivity|]. split; [reflexivity|].
  split; [exact (L5 _ K1)|]. destruct (M5 _ K2) as [E|[E F]]; [now left|right; split; assumption].
Qed.

(** An optimiser that marks no answer as a success. *)
Definition failing : solvers unit :=
  Solvers (fun _ _ _ => (false, tt)) (fun _ _ _ _ => Answer false (Point tt 0 5))
    (fun _ _ _ _ => Answer false (Point tt 3 0)) (fun _ _ _ _ => Answer false (Point tt (-(4)) 0)).

(** The C function writes numbers that the optimiser did not mark as a success, without
    telling: the answer is the same as for the optimiser that succeeds everywhere. *)
Theorem C59_c_api_reports_failures_refuted :
  exists (u : Q) (sv : solvers unit) d d0 n smax smin arrays,
    gg_diagram u sv d d0 n = Ok (smax, smin) /\ c_gg_diagram u sv d d0 n = Ok arrays /\
    Forall (fun s => s_ok s = false) smax /\ Forall (fun s => s_ok s = false) smin /\ length smax = 2%nat.
Proof.
  exists 1, failing, (Answer false (Point tt 0 0)), (Solution false 0 0 tt), 2%nat.
  eexists _, _, _. split; [vm_compute; reflexivity|]. split; [vm_compute; reflexivity|].
  split; [repeat constructor|]. split; [repeat constructor|]. reflexivity.
Qed.

(** ** C60 *)

(** The diagram has [n] points in both halves; the last one is the maximum lateral acceleration, the others are equally
    spaced below it. *)
Theorem C60_points_partial {X} (u : Q) (sv : solvers X) d d0 (n : nat) :
  let rl := solve_max_lat_acc u sv d in
  0 <= s_ay rl -> (1 <= n)%nat -> (Z.of_nat n <= 2 ^ 64)%Z ->
  exists smax smin, gg_diagram u sv d d0 n = Ok (smax, smin) /\
    length smax = n /\ length smin = n /\
    nth_error smax (n - 1) = Some rl /\ nth_error smin (n - 1) = Some rl /\
    forall i, (i < n)%nat -> (2 <= n)%nat -> exists e1 e2,
      nth_error smax i = Some e1 /\ nth_error smin i = Some e2 /\
      s_ay e1 * inject_Z (Z.of_nat (n - 1)) == inject_Z (Z.of_nat i) * s_ay rl /\ s_ay e2 == s_ay e1.
Proof.
  cbn zeta. intros H H1 H2. destruct (max_lon_ok u sv d 0 H) as [[rmax rmin] E].
  destruct (gg_ok u sv d d0 n rmax rmin H1 H2 E) as (smax & smin & G & L1 & L2 & A1 & A2 & HE).
  set (rl := solve_max_lat_acc u sv d) in *.
  exists smax, smin. split; [exact G|]. split; [exact L1|]. split; [exact L2|]. split; [exact A1|]. split; [exact A2|].
  intros i Hi Hn. destruct (Nat.eq_dec i (n - 1)) as [->|Hne].
  - exists rl, rl. split; [exact A1|]. split; [exact A2|]. split; [ring|reflexivity].
  - destruct (HE i ltac:(lia)) as (e1 & e2 & C1 & [p ->] & C3 & (k & q & ->)).
    do 2 eexists. split; [exact C1|]. split; [exact C3|]. split; [|reflexivity].
    cbn [lon_solution s_ay]. field. intro C. apply (proj1 (inject_Z_injective _ 0)) in C. lia.
Qed.

(** So the lateral acceleration starts at zero and increases strictly. *)
Theorem C60_increasing_partial {X} (u : Q) (sv : solvers X) d d0 (n : nat) smax smin :
  0 < s_ay (solve_max_lat_acc u sv d) -> (2 <= n)%nat -> (Z.of_nat n <= 2 ^ 64)%Z ->
  gg_diagram u sv d d0 n = Ok (smax, smin) ->
  (forall e, nth_error smax 0 = Some e -> s_ay e == 0) /\
  forall i j e f, (i < j)%nat -> nth_error smax i = Some e -> nth_error smax j = Some f -> s_ay e < s_ay f.
Proof.
  intros H H1 H2 G. destruct (C60_points_partial u sv d d0 n) as (s1 & s2 & G' & L1 & L2 & A1 & A2 & HE); [now apply Qlt_le_weak|lia|lia|].
  rewrite G in G'. injection G' as <- <-.
  assert (HN : 0 < inject_Z (Z.of_nat (n - 1))) by (change 0 with (inject_Z 0); rewrite <- Zlt_Qlt; lia).
  split.
  - intros e He. destruct (HE 0%nat ltac:(lia) H1) as (e1 & e2 & B1 & _ & B3 & _). rewrite He in B1. injection B1 as <-.
    change (inject_Z (Z.of_nat 0)) with 0 in B3. nra.
  - intros i j e f Hij He Hf.
    assert (Hj : (j < n)%nat) by (rewrite <- L1; apply nth_error_Some; congruence).
    destruct (HE i ltac:(lia) H1) as (e1 & _ & B1 & _ & B3 & _). rewrite He in B1. injection B1 as <-.
    destruct (HE j ltac:(lia) H1) as (f1 & _ & C1 & _ & C3 & _). rewrite Hf in C1. injection C1 as <-.
    assert (HZ : inject_Z (Z.of_nat i) < inject_Z (Z.of_nat j)) by (rewrite <- Zlt_Qlt; lia).
    nra.
Qed.

(** With one point, the only one is the maximum lateral acceleration: the diagram does not start at zero. *)
Theorem C60_one_point_refuted {X} (u : Q) (sv : solvers X) d d0 : 0 <= s_ay (solve_max_lat_acc u sv d) ->
  gg_diagram u sv d d0 1 = Ok ([solve_max_lat_acc u sv d], [solve_max_lat_acc u sv d]).
Proof.
  intro H. destruct (C60_points_partial u sv d d0 1 H ltac:(lia) ltac:(lia)) as (s1 & s2 & G & L1 & L2 & A1 & A2 & _).
  rewrite G. destruct s1 as [|a [|b s1]]; try discriminate. destruct s2 as [|a' [|b' s2]]; try discriminate.
  simpl in A1, A2. congruence.
Qed.

(** No point at all is not rejected: the loop bound wraps around and the first turn reads outside. *)
Theorem C60_no_point_refuted {X} (u : Q) (sv : solvers X) d d0 : 0 <= s_ay (solve_max_lat_acc u sv d) ->
  gg_diagram u sv d d0 0 = UB.
Proof.
  intro H. destruct (max_lon_ok u sv d 0 H) as [[rmax rmin] E].
  unfold gg_diagram. rewrite E. cbn [bind]. destruct size_pred_0 as [k Ek]. rewrite Ek. reflexivity.
Qed.

(** When the maximum lateral acceleration comes out negative the call throws, for every [n]. *)
Theorem C60_negative_throws {X} (u : Q) (sv : solvers X) d d0 n : s_ay (solve_max_lat_acc u sv d) < 0 ->
  gg_diagram u sv d d0 n = Throw.
Proof.
  intro H. unfold gg_diagram, solve_max_lon_acc. apply Qlt_bool_iff in H. now rewrite H.
Qed.

Lemma scale u a b : 0 < u -> (a / u + b / u) * u == a + b.
Proof. intro. field. lra. Qed.
Lemma scale' u a b : 0 < u -> (a / u - b / u) * u == a - b.
Proof. intro. field. lra. Qed.

(** With an optimiser that stays within its bounds, every maximum lies between the
    longitudinal acceleration at the maximum lateral one less 0.5 and the maximum without lateral acceleration plus 0.1, and
    every minimum between the minimum without lateral acceleration less 0.1 and the first plus 0.1. *)
Theorem C60_within_partial {X} (u : Q) (sv : solvers X) d d0 (n : nat) rmax rmin smax smin : 0 < u ->
  (forall ay, respects (sv_max sv ay)) -> (forall ay, respects (sv_min sv ay)) ->
  (1 <= n)%nat -> (Z.of_nat n <= 2 ^ 64)%Z ->
  solve_max_lon_acc u sv d 0 = Ok (rmax, rmin) -> gg_diagram u sv d d0 n = Ok (smax, smin) ->
  let ax_lat := s_ax (solve_max_lat_acc u sv d) in
  ax_lat - (1#2) <= s_ax rmax + (1#10) -> s_ax rmin - (1#10) <= ax_lat + (1#10) ->
  forall i e1 e2, (i < n - 1)%nat -> nth_error smax i = Some e1 -> nth_error smin i = Some e2 ->
    ax_lat - (1#2) <= s_ax e1 <= s_ax rmax + (1#10) /\ s_ax rmin - (1#10) <= s_ax e2 <= ax_lat + (1#10).
Proof.
  intros Hu R1 R2 H1 H2 E G. cbn zeta. intros O1 O2 i e1 e2 Hi E1 E2.
  destruct (gg_ok u sv d d0 n rmax rmin H1 H2 E) as (s1 & s2 & G' & L1 & L2 & A1 & A2 & HE).
  rewrite G in G'. injection G' as <- <-.
  set (rl := solve_max_lat_acc u sv d) in *.
  destruct (HE i Hi) as (f1 & f2 & C1 & [p D1] & C3 & (k & q & D2)).
  rewrite E1 in C1. rewrite E2 in C3. injection C1 as <-. injection C3 as <-. subst e1 e2. cbn [lon_solution s_ax].
  assert (W : forall a b, a * u <= b * u -> a <= b) by (intros a b A; nra).
  match goal with |- context [sv_max sv ?y ?k ?p ?b] => destruct (R1 y k p b) as [F1 F2];
    [apply W; cbn [lo hi]; rewrite scale, scale' by assumption; exact O1|]; set (x1 := pt_ax (an_x (sv_max sv y k p b))) in * end.
  match goal with |- context [sv_min sv ?y ?k ?p ?b] => destruct (R2 y k p b) as [F3 F4];
    [apply W; cbn [lo hi]; rewrite scale, scale' by assumption; exact O2|]; set (x2 := pt_ax (an_x (sv_min sv y k p b))) in * end.
  cbn [lo hi] in *.
  apply (Qmult_le_compat_r _ _ u) in F1, F2, F3, F4; try lra.
  rewrite scale' in F1, F3 by assumption. rewrite scale in F2, F4 by assumption.
  repeat split; assumption.
Qed.

(** With an exact optimiser over the accelerations [f_lo ay, f_hi ay], the points of the diagram are the true extremes as
    long as these are not more than 0.1 m/s2 beyond the extremes without lateral acceleration, and the
    range reaches the longitudinal acceleration at the maximum lateral one. *)
Theorem C60_extremes_partial {X} (u : Q) (sv : solvers X) d d0 (n : nat) rmax rmin smax smin (f_lo f_hi : Q -> Q) : 0 < u ->
  (forall y, maximises (f_lo y) (f_hi y) (sv_max sv y)) -> (forall y, minimises (f_lo y) (f_hi y) (sv_min sv y)) ->
  (1 <= n)%nat -> (Z.of_nat n <= 2 ^ 64)%Z ->
  solve_max_lon_acc u sv d 0 = Ok (rmax, rmin) -> gg_diagram u sv d d0 n = Ok (smax, smin) ->
  let ax_lat := s_ax (solve_max_lat_acc u sv d) in
  forall i e1 e2, (i < n - 1)%nat -> nth_error smax i = Some e1 -> nth_error smin i = Some e2 ->
    let y := s_ay e1 / u in
    s_ax rmin - (1#10) <= u * f_lo y <= ax_lat + (1#10) -> ax_lat - (1#2) <= u * f_hi y <= s_ax rmax + (1#10) ->
    u * f_lo y <= u * f_hi y ->
    s_ok e1 = true /\ s_ax e1 == u * f_hi y /\ s_ok e2 = true /\ s_ax e2 == u * f_lo y.
Proof.
  intros Hu R1 R2 H1 H2 E G. cbn zeta. intros i e1 e2 Hi E1 E2.
  destruct (gg_ok u sv d d0 n rmax rmin H1 H2 E) as (s1 & s2 & G' & L1 & L2 & A1 & A2 & HE).
  rewrite G in G'. injection G' as <- <-.
  set (rl := solve_max_lat_acc u sv d) in *.
  destruct (HE i Hi) as (f1 & f2 & C1 & [p D1] & C3 & (k & q & D2)).
  rewrite E1 in C1. rewrite E2 in C3. injection C1 as <-. injection C3 as <-. subst e1 e2. cbn [lon_solution s_ax s_ok s_ay].
  set (ay := 0 + _).
  intros [F1 F2] [F3 F4] F5.
  assert (S1 : forall a b c, a <= u * b -> a == c * u -> c <= b) by (intros a b c A B; nra).
  assert (S2 : forall a b c, u * b <= a -> a == c * u -> b <= c) by (intros a b c A B; nra).
  assert (T1 := S1 _ _ (s_ax rmin / u - (1 # 10) / u) F1 ltac:(rewrite scale' by assumption; reflexivity)).
  assert (T2 := S2 _ _ (s_ax rl / u + (1 # 10) / u) F2 ltac:(rewrite scale by assumption; reflexivity)).
  assert (T3 := S1 _ _ (s_ax rl / u - (1 # 2) / u) F3 ltac:(rewrite scale' by assumption; reflexivity)).
  assert (T4 := S2 _ _ (s_ax rmax / u + (1 # 10) / u) F4 ltac:(rewrite scale by assumption; reflexivity)).
  assert (T5 : f_lo (ay / u) <= f_hi (ay / u)) by nra.
  match goal with |- context [sv_max sv ?y ?k ?p ?b] => destruct (R1 y k p b) as [G1 G2]; cbn [lo hi] in *; [lra|lra|lra|] end.
  match goal with |- context [sv_min sv ?y ?k ?p ?b] => destruct (R2 y k p b) as [G3 G4]; cbn [lo hi] in *; [lra|lra|lra|] end.
  split; [exact G1|]. split. { rewrite G2. rewrite Q.min_l by lra. ring. }
  split; [exact G3|]. rewrite G4. rewrite Q.max_l by lra. ring.
Qed.

(** ** C90 *)

(** With an exact optimiser the search for the maximum longitudinal acceleration finds it when it is
    between -2 and 10 * 1.2^7 (35.8) m/s2. *)
Theorem C90_maximum_partial {X} (u : Q) (sv : solvers X) d ay r1 r2 f_lo f_hi : 0 < u ->
  maximises f_lo f_hi (sv_max sv (ay / u)) ->
  solve_max_lon_acc u sv d ay = Ok (r1, r2) ->
  u * f_lo <= 10 -> - (2) <= u * f_hi -> u * f_hi <= 10 * (6#5) ^ 7 ->
  s_ok r1 = true /\ s_ax r1 == u * f_hi.
Proof.
  intros Hu HM HE H1 H2 H3. apply max_lon_inv in HE as (x0 & -> & _).
  assert (A := div_pos 2 u Hu eq_refl). assert (B := div_pos 10 u Hu eq_refl).
  assert (N : - (2) / u == - (2 / u)) by (field; lra).
  assert (U2 : 2 / u * u == 2) by (field; lra). assert (U10 : 10 / u * u == 10) by (field; lra).
  destruct (lon_max_found _ f_lo f_hi d HM 7 0 x0 (lon_max_box u)) as [K1 K2]; unfold lon_max_box; cbn [lo hi].
  - rewrite N. lra.
  - exact B.
  - rewrite N. apply Qnot_lt_le. intro C. apply (Qmult_lt_compat_r _ _ u Hu) in C. lra.
  - apply Qnot_lt_le. intro C. apply (Qmult_lt_compat_r _ _ u Hu) in C. lra.
  - apply Qnot_lt_le. intro C. apply (Qmult_lt_compat_r _ _ u Hu) in C.
    change (Z.of_nat 7) with 7%Z in C. set (P := (6 # 5) ^ 7) in *.
    setoid_replace (10 / u * P * u) with (10 / u * u * P) in C by ring. rewrite U10 in C. lra.
  - split; [exact K1|]. cbn [lon_solution s_ax]. rewrite K2. ring.
Qed.

(** The search for the minimum finds it when it is not more than 10 * 1.25^29 m/s2 below the longitudinal
    acceleration at the maximum lateral one, and the range of accelerations meets the first bounds. *)
Theorem C90_minimum_partial {X} (u : Q) (sv : solvers X) d ay r1 r2 f_lo f_hi : 0 < u ->
  minimises f_lo f_hi (sv_min sv (ay / u)) ->
  solve_max_lon_acc u sv d ay = Ok (r1, r2) ->
  let ax_lat := s_ax (solve_max_lat_acc u sv d) in
  u * f_lo <= ax_lat -> ax_lat - 10 <= u * f_hi -> ax_lat - 10 * (5#4) ^ 29 <= u * f_lo ->
  s_ok r2 = true /\ s_ax r2 == u * f_lo.
Proof.
  intros Hu HM HE. apply max_lon_inv in HE as (x0 & _ & ->).
  set (rl := solve_max_lat_acc u sv d). cbn zeta. rewrite lon_min_box_is. intros H1 H2 H3.
  assert (B := div_pos 10 u Hu eq_refl).
  assert (U10 : 10 / u * u == 10) by (field; lra). assert (UA : s_ax rl / u * u == s_ax rl) by (field; lra).
  destruct (lon_min_found _ f_lo f_hi d HM 29 0 x0 (Box (s_ax rl / u - 10 / u) (s_ax rl / u))) as [K1 K2]; unfold proper; cbn [lo hi].
  - lra.
  - apply Qnot_lt_le. intro C. apply (Qmult_lt_compat_r _ _ u Hu) in C. lra.
  - apply Qnot_lt_le. intro C. apply (Qmult_lt_compat_r _ _ u Hu) in C. lra.
  - apply Qnot_lt_le. intro C. apply (Qmult_lt_compat_r _ _ u Hu) in C.
    change (Z.of_nat 29) with 29%Z in C. set (P := (5 # 4) ^ 29) in *.
    setoid_replace ((s_ax rl / u - (s_ax rl / u - (s_ax rl / u - 10 / u)) * P) * u)
      with (s_ax rl / u * u - 10 / u * u * P) in C by ring. rewrite U10, UA in C. lra.
  - split; [exact K1|]. cbn [lon_solution s_ax]. rewrite K2. ring.
Qed.

(** An exact optimiser for a car whose longitudinal acceleration ranges over [f_lo, f_hi], whatever the lateral one. *)
Definition exact (f_lo f_hi : Q) : solvers unit :=
  let feasible b := Qle_bool (lo b) f_hi && Qle_bool f_lo (hi b) in
  Solvers (fun _ _ _ => (true, tt)) (fun _ _ _ _ => Answer true (Point tt 0 5))
    (fun _ _ _ b => Answer (feasible b) (Point tt (Qmin f_hi (hi b)) 0))
    (fun _ _ _ b => Answer (feasible b) (Point tt (Qmax f_lo (lo b)) 0)).

Lemma exact_maximises f_lo f_hi y : maximises f_lo f_hi (sv_max (exact f_lo f_hi) y).
Proof.
  intros k p b _ H1 H2. split; [|reflexivity]. apply andb_true_intro. split; now apply Qle_bool_iff.
Qed.
Lemma exact_minimises f_lo f_hi y : minimises f_lo f_hi (sv_min (exact f_lo f_hi) y).
Proof.
  intros k p b _ H1 H2. split; [|reflexivity]. apply andb_true_intro. split; now apply Qle_bool_iff.
Qed.

(** A car that slows down at more than 2 m/s2 even with full throttle (high speed): the maximum exists
    and the optimiser is exact, but the search reports no solution. *)
Theorem C90_strong_drag_refuted : exists r1 r2,
  maximises (-(9)) (-(3)) (sv_max (exact (-(9)) (-(3))) (0 / 1)) /\
  solve_max_lon_acc 1 (exact (-(9)) (-(3))) (Answer false (Point tt 0 0)) 0 = Ok (r1, r2) /\ s_ok r1 = false.
Proof.
  eexists _, _. split; [apply exact_maximises|]. split; [vm_compute; reflexivity|reflexivity].
Qed.

(** A maximum above 35.8 m/s2 is reported as solved with the value of the artificial bound. *)
Theorem C90_clipped_refuted : exists r1 r2,
  maximises (-(9)) 40 (sv_max (exact (-(9)) 40) (0 / 1)) /\
  solve_max_lon_acc 1 (exact (-(9)) 40) (Answer false (Point tt 0 0)) 0 = Ok (r1, r2) /\
  s_ok r1 = true /\ s_ax r1 < 36.
Proof.
  eexists _, _. split; [apply exact_maximises|]. split; [vm_compute; reflexivity|]. split; reflexivity.
Qed.

(** The diagram cuts a maximum that grows with the lateral acceleration by more than 0.1 m/s2. *)
Definition growing : solvers unit :=
  Solvers (fun _ _ _ => (true, tt)) (fun _ _ _ _ => Answer true (Point tt 0 4))
    (fun y _ _ b => Answer true (Point tt (Qmin (3 + y / 2) (hi b)) 0))
    (fun y _ _ b => Answer true (Point tt (Qmax (-(4)) (lo b)) 0)).
Theorem C60_growing_cut_refuted : exists smax smin e,
  (forall y b, lo b <= hi b -> lo b <= 3 + y / 2 ->
     pt_ax (an_x (sv_max growing y 0 (Point tt 0 0) b)) == Qmin (3 + y / 2) (hi b)) /\
  gg_diagram 1 growing (Answer false (Point tt 0 0)) (Solution false 0 0 tt) 3 = Ok (smax, smin) /\
  nth_error smax 1 = Some e /\ s_ok e = true /\ s_ay e == 2 /\ s_ax e == 31#10 /\ ~ s_ax e == 3 + 2 / 2.
Proof.
  eexists _, _, _. split; [intros; reflexivity|]. split; [vm_compute; reflexivity|]. split; [vm_compute; reflexivity|].
  split; [reflexivity|]. split; [reflexivity|]. split; [reflexivity|]. intro C. vm_compute in C. discriminate.
Qed.

(** The three arrays filled through the C API: lateral accelerations from zero to the maximum,
    the largest longitudinal accelerations in the second array and the smallest in the
    third. *)
Theorem C60_arrays_partial {X} (u : Q) (sv : solvers X) d d0 (n : nat) rmax rmin ay ax_max ax_min (f_lo f_hi : Q -> Q) : 0 < u ->
  let rl := solve_max_lat_acc u sv d in
  (forall y, maximises (f_lo y) (f_hi y) (sv_max sv y)) -> (forall y, minimises (f_lo y) (f_hi y) (sv_min sv y)) ->
  0 < s_ay rl -> (2 <= n)%nat -> (Z.of_nat n <= 2 ^ 64)%Z ->
  solve_max_lon_acc u sv d 0 = Ok (rmax, rmin) -> c_gg_diagram u sv d d0 n = Ok (ay, ax_max, ax_min) ->
  length ay = n /\ length ax_max = n /\ length ax_min = n /\
  (exists a, nth_error ay 0 = Some a /\ a == 0) /\ nth_error ay (n - 1) = Some (s_ay rl) /\
  nth_error ax_max (n - 1) = Some (s_ax rl) /\ nth_error ax_min (n - 1) = Some (s_ax rl) /\
  (forall i j a b, (i < j)%nat -> nth_error ay i = Some a -> nth_error ay j = Some b -> a < b) /\
  forall i a m1 m2, (i < n - 1)%nat -> nth_error ay i = Some a -> nth_error ax_max i = Some m1 -> nth_error ax_min i = Some m2 ->
    let y := a / u in
    s_ax rmin - (1#10) <= u * f_lo y <= s_ax rl + (1#10) -> s_ax rl - (1#2) <= u * f_hi y <= s_ax rmax + (1#10) ->
    u * f_lo y <= u * f_hi y ->
    m1 == u * f_hi y /\ m2 == u * f_lo y.
Proof.
  intros Hu rl R1 R2 Hp H1 H2 E C.
  destruct (C60_points_partial u sv d d0 n ltac:(fold rl; lra) ltac:(lia) H2) as (smax & smin & G & L1 & L2 & A1 & A2 & HE).
  unfold c_gg_diagram in C. rewrite G in C. cbn [bind] in C. injection C as <- <- <-.
  destruct (C60_increasing_partial u sv d d0 n smax smin Hp H1 H2 G) as [I1 I2].
  rewrite !map_length. fold rl in A1, A2.
  assert (N : forall A B (f : A -> B) l i b, nth_error (map f l) i = Some b -> exists a, nth_error l i = Some a /\ b = f a).
  { intros A B f l i b H. rewrite nth_error_map in H. destruct (nth_error l i) as [x|]; [|discriminate]. injection H as <-. eauto. }
  split; [exact L1|]. split; [exact L1|]. split; [exact L2|]. split.
  { destruct (HE 0%nat ltac:(lia) H1) as (e1 & e2 & B1 & _). exists (s_ay e1). split; [|exact (I1 e1 B1)].
    apply map_nth_error. exact B1. }
  split; [apply map_nth_error; exact A1|]. split; [apply map_nth_error; exact A1|]. split; [apply map_nth_error; exact A2|].
  split.
  - intros i j a b Hij Ha Hb. apply N in Ha. apply N in Hb. destruct Ha as (e & He & ->), Hb as (f & Hf & ->). eapply I2; eassumption.
  - intros i a m1 m2 Hi Ha Hm1 Hm2. cbn zeta. intros B1 B2 B3.
    apply N in Ha. destruct Ha as (e & He & ->). apply N in Hm1. destruct Hm1 as (e' & He' & ->).
    rewrite He in He'. injection He' as <-. apply N in Hm2. destruct Hm2 as (f & Hf & ->).
    destruct (C60_extremes_partial u sv d d0 n rmax rmin smax smin f_lo f_hi Hu R1 R2 ltac:(lia) H2 E G i e f Hi He Hf B1 B2 B3) as (_ & Q1 & _ & Q2).
    split; assumption.
Qed.

(** *** Examples: the hypotheses are met. *)
Definition d1 : answer unit := Answer false (Point tt 0 0).
Definition d2 : solution unit := Solution false 0 0 tt.

Example max_15_found : exists r1 r2,
  solve_max_lon_acc (981#100) (exact (-(2)) (3#2)) d1 1 = Ok (r1, r2) /\
  s_ok r1 = true /\ s_ax r1 == (981#100) * (3#2) /\ s_ok r2 = true /\ s_ax r2 == (981#100) * -(2).
Proof.
  destruct (max_lon_ok (981#100) (exact (-(2)) (3#2)) d1 1) as [[r1 r2] E]; [vm_compute; discriminate|].
  exists r1, r2. split; [exact E|].
  destruct (C90_maximum_partial (981#100) _ d1 1 r1 r2 (-(2)) (3#2) eq_refl (exact_maximises _ _ _) E) as [A B];
    [vm_compute; discriminate| vm_compute; discriminate| vm_compute; discriminate|].
  destruct (C90_minimum_partial (981#100) _ d1 1 r1 r2 (-(2)) (3#2) eq_refl (exact_minimises _ _ _) E) as [C D];
    [vm_compute; discriminate| vm_compute; discriminate| vm_compute; discriminate|].
  auto.
Qed.

Example diagram_of_three : exists smax smin e1 e2,
  gg_diagram 10 (exact (-(1)) (1#2)) d1 d2 3 = Ok (smax, smin) /\
  nth_error smax 1 = Some e1 /\ nth_error smin 1 = Some e2 /\ 0 < s_ay e1 /\
  s_ax e1 == 5 /\ s_ax e2 == -(10).
Proof.
  eexists _, _, _, _. split; [vm_compute; reflexivity|]. repeat split; vm_compute; reflexivity.
Qed.
Example diagram_hyps :
  0 < s_ay (solve_max_lat_acc 10 (exact (-(1)) (1#2)) d1) /\ exists r, solve_max_lon_acc 10 (exact (-(1)) (1#2)) d1 0 = Ok r.
Proof. split; [reflexivity|]. eexists. vm_compute. reflexivity. Qed.
Example search_widens : length (lat_attempts 10 (exact (-(1)) (1#2))) = 1%nat /\
  length (lon_max_loop 8 0 (sv_max (exact (-(9)) 40) 0) (Point tt 0 0) (lon_max_box 1)) = 8%nat.
Proof. split; vm_compute; reflexivity. Qed.
Example negative : s_ay (solve_max_lat_acc 1 (Solvers (fun _ _ _ => (true, tt)) (fun _ _ _ _ => Answer false (Point tt 0 (-(1))))
    (fun _ _ _ _ => d1) (fun _ _ _ _ => d1)) d1) < 0.
Proof. reflexivity. Qed.
(** An optimiser that always ends in the middle stays within them. *)
Definition bounded : solvers unit :=
  Solvers (fun _ _ _ => (true, tt)) (fun _ _ _ _ => Answer true (Point tt 1 5))
    (fun _ _ _ b => Answer true (Point tt ((lo b + hi b) / 2) 0))
    (fun _ _ _ b => Answer true (Point tt ((lo b + hi b) / 2) 0)).
Example bounded_meets_C60_within : (forall ay, respects (sv_max bounded ay)) /\ (forall ay, respects (sv_min bounded ay)) /\
  exists rmax rmin, solve_max_lon_acc 1 bounded d1 0 = Ok (rmax, rmin) /\
    s_ax (solve_max_lat_acc 1 bounded d1) - (1#2) <= s_ax rmax + (1#10) /\
    s_ax rmin - (1#10) <= s_ax (solve_max_lat_acc 1 bounded d1) + (1#10).
Proof.
  split; [intros y k p b H; cbn [sv_max sv_min bounded an_x pt_ax]; unfold Qdiv; change (/ 2) with (1#2); lra|]. split; [intros y k p b H; cbn [sv_max sv_min bounded an_x pt_ax]; unfold Qdiv; change (/ 2) with (1#2); lra|].
  eexists _, _. split; [vm_compute; reflexivity|]. split; vm_compute; discriminate.
Qed.
(** The exact optimiser meets the hypotheses of C60_extremes_partial at the middle point. *)
Example exact_meets_C60_extremes : exists smax smin rmax rmin e1 e2,
  solve_max_lon_acc 10 (exact (-(1)) (1#2)) d1 0 = Ok (rmax, rmin) /\
  gg_diagram 10 (exact (-(1)) (1#2)) d1 d2 3 = Ok (smax, smin) /\
  nth_error smax 1 = Some e1 /\ nth_error smin 1 = Some e2 /\
  s_ax rmin - (1#10) <= 10 * -(1) <= s_ax (solve_max_lat_acc 10 (exact (-(1)) (1#2)) d1) + (1#10) /\
  s_ax (solve_max_lat_acc 10 (exact (-(1)) (1#2)) d1) - (1#2) <= 10 * (1#2) <= s_ax rmax + (1#10).
Proof.
  eexists _, _, _, _, _, _. split; [vm_compute; reflexivity|]. split; [vm_compute; reflexivity|].
  split; [vm_compute; reflexivity|]. split; [vm_compute; reflexivity|].
  repeat split; vm_compute; discriminate.
Qed.

Print Assumptions C59_lateral_search.
Print Assumptions C59_longitudinal_searches.
Print Assumptions C59_c_api_reports_failures_refuted.
Print Assumptions C60_points_partial.
Print Assumptions C60_increasing_partial.
Print Assumptions C60_one_point_refuted.
Print Assumptions C60_no_point_refuted.
Print Assumptions C60_negative_throws.
Print Assumptions C60_within_partial.
Print Assumptions C60_extremes_partial.
Print Assumptions C90_maximum_partial.
Print Assumptions C90_minimum_partial.
Print Assumptions C90_strong_drag_refuted.
Print Assumptions C90_clipped_refuted.
Print Assumptions C60_growing_cut_refuted.
Print Assumptions C60_arrays_partial.
