(** Property theorem C136: steady states, searches and g-g diagram with plain numbers. *)
From Coq Require Import ZArith QArith Qminmax Qfield Lqa Lia Bool Arith List.
From Verif Require Import M_Controls M_Laptime M_Steady L_Steady M_SteadyScalar S_SteadyScalar.
Import ListNotations.
Local Open Scope Q_scope.

Section Lemmas.
Context {X : Type}.
Implicit Types sv : scalar_solvers X.

Lemma steps_trace sv ax ay n throw left : forall i ok x ok' x',
  steps sv ax ay n left i throw ok x = Ok (ok', x') ->
  exists pts : list (bool * X), length pts = left /\
    (forall k b y, nth_error pts k = Some (b, y) ->
       exists z, (z = x /\ k = 0%nat \/ exists b', (1 <= k)%nat /\ nth_error pts (k - 1) = Some (b', z)) /\
       (b, y) = sc_steady sv ((inject_Z (Z.of_nat (i + k)) / inject_Z (Z.of_nat n)) * ax)
                             ((inject_Z (Z.of_nat (i + k)) / inject_Z (Z.of_nat n)) * ay) z /\
       (throw = true -> b = true)) /\
    (left = 0%nat \/ nth_error pts (left - 1) = Some (ok', x')).
Proof.
  induction left as [|left IH]; intros i ok x ok' x' H.
  - exists []. split; [reflexivity|]. split; [|left; reflexivity]. intros [|k] b y Hk; discriminate.
  - cbn [steps] in H. destruct (sc_steady sv _ _ x) as [ok1 x1] eqn:E1.
    destruct (throw && negb ok1) eqn:Et; [discriminate|].
    assert (Hlast : left = 0%nat -> ok' = ok1 /\ x' = x1).
    { intros ->. cbn [steps] in H. injection H as <- <-. auto. }
    destruct (IH _ _ _ _ _ H) as (pts & L & P & Q). exists ((ok1, x1) :: pts).
    split; [cbn; congruence|]. split.
    + intros [|k] b y Hk.
      * cbn in Hk. injection Hk as <- <-. exists x. split; [left; auto|].
        rewrite Nat.add_0_r, E1. split; [reflexivity|]. intros ->. destruct ok1; [reflexivity|discriminate].
      * cbn in Hk. destruct (P k b y Hk) as (z & Hz & E & Hb). exists z.
        rewrite <- Nat.add_succ_comm. split; [|split; assumption]. right.
        destruct Hz as [[-> ->]|(b' & K & Hz)].
        -- exists ok1. split; [lia|]. reflexivity.
        -- exists b'. split; [lia|]. replace (S k - 1)%nat with (S (k - 1)) by lia. exact Hz.
    + right. destruct Q as [->|Q].
      * destruct (Hlast eq_refl) as [-> ->]. reflexivity.
      * destruct left as [|left]; [destruct (Hlast eq_refl) as [-> ->]; reflexivity|].
        replace (S (S left) - 1)%nat with (S (S left - 1)) by lia. exact Q.
Qed.

Lemma steps_total sv ax ay n throw left : forall i ok x,
  (exists r, steps sv ax ay n left i throw ok x = Ok r) \/ throw = true /\ steps sv ax ay n left i throw ok x = Throw.
Proof.
  induction left as [|left IH]; intros i ok x; [left; eexists; reflexivity|]. cbn [steps].
  destruct (sc_steady sv _ _ x) as [ok1 x1]. destruct throw; cbn [andb].
  - destruct ok1; cbn [negb]; [apply IH|right; auto].
  - apply IH.
Qed.
End Lemmas.

Section Theorems.
Context {X : Type}.
Implicit Types sv : scalar_solvers X.

(** A steady state in [n >= 1] steps: either the solver fails at a step and the call throws (only if asked to), or the result
    is the answer to the accelerations asked for, reached through equal parts of them, each step from the answer of
    the one before; the success reported is that of the last step. *)
Theorem C136_steady_state_partial sv ax ay n x0 throw : (1 <= n)%nat ->
  let start := match x0 with None => sc_guess sv | Some x => x end in
  (throw = true /\ scalar_solve sv ax ay n x0 throw = Throw) \/
  exists r, scalar_solve sv ax ay n x0 throw = Ok r /\ s_ax r = ax /\ s_ay r = ay /\
    reached (sc_steady sv) ax ay n start throw (s_ok r) (s_rest r) /\ (throw = true -> s_ok r = true).
Proof.
  intros Hn start. destruct n as [|n]; [lia|]. unfold scalar_solve. fold start.
  destruct (steps_total sv ax ay (S n) throw (S n) 1 false start) as [[[ok x] E]|[Ht E]].
  - right. rewrite E. exists (Solution ok ax ay x). split; [reflexivity|]. split; [reflexivity|]. split; [reflexivity|].
    destruct (steps_trace sv ax ay (S n) throw (S n) 1 false start ok x E) as (pts & L & P & [Q|Q]); [discriminate|].
    split; [exists pts; split; [exact L|]; split; [exact P|exact Q]|].
    intros Ht. destruct (P _ _ _ Q) as (_ & _ & _ & Hb). apply Hb, Ht.
  - left. rewrite E. auto.
Qed.

(** The last step asks for the whole accelerations. *)
Theorem C136_last_step_partial (ax : Q) n : (1 <= n)%nat -> (inject_Z (Z.of_nat n) / inject_Z (Z.of_nat n)) * ax == ax.
Proof.
  intros Hn. field. intro C. apply (proj1 (inject_Z_injective _ 0)) in C. lia.
Qed.

(** Without steps, the state returned was never computed. *)
Theorem C136_no_steps_refuted sv ax ay x0 throw : scalar_solve sv ax ay 0 x0 throw = UB.
Proof. reflexivity. Qed.

(** The search for the maximum lateral acceleration starts from the solved state without accelerations and reports the
    answer of the optimiser as it is. *)
Theorem C136_lateral_partial sv r : scalar_max_lat sv = Ok r ->
  exists r0 a, sc_steady sv ((inject_Z 1 / inject_Z 1) * 0) ((inject_Z 1 / inject_Z 1) * 0) (sc_guess sv) = (true, s_rest r0) /\
    sc_lat sv (Point (s_rest r0) 0 0) (Box (- (2)) 2) (Box (- (20)) 20) = Ok a /\
    s_ok r = an_ok a /\ s_ax r = pt_ax (an_x a) /\ s_ay r = pt_ay (an_x a) /\ s_rest r = pt_rest (an_x a).
Proof.
  unfold scalar_max_lat, scalar_solve. cbn [steps].
  destruct (sc_steady sv _ _ _) as [ok x] eqn:E. destruct ok; cbn [andb negb bind]; [|discriminate].
  destruct (sc_lat sv _ _ _) as [a| |] eqn:Ea; cbn [bind]; try discriminate. intros H. injection H as <-.
  exists (Solution true 0 0 x), a. cbn [s_rest s_ok s_ax s_ay].
  split; [first [exact E | reflexivity]|]. split; [exact Ea|]. repeat split; reflexivity.
Qed.

(** The searches at a given lateral acceleration: rejected above the maximum, otherwise with exact optimisers over the
    accelerations [f_lo, f_hi] of the car the true extremes, as far as they lie within [-10, 10] and on either side of 2 and -2. *)
Theorem C136_longitudinal_partial u sv ay rl f_lo f_hi :
  scalar_max_lat sv = Ok rl ->
  (s_ay rl < ay -> scalar_max_lon u sv ay = Throw) /\
  (ay <= s_ay rl -> (forall a b x, fst (sc_steady sv a b x) = true) ->
   maximises_to f_lo f_hi (sc_max sv ay) -> minimises_to f_lo f_hi (sc_min sv ay) ->
   f_lo <= f_hi -> - (2) <= f_hi <= 10 -> - (10) <= f_lo <= 2 ->
   exists r1 r2, scalar_max_lon u sv ay = Ok (r1, r2) /\ s_ok r1 = true /\ s_ok r2 = true /\
     s_ax r1 == f_hi /\ s_ax r2 == f_lo /\ s_ay r1 = ay /\ s_ay r2 = ay).
Proof.
  intros E. unfold scalar_max_lon. rewrite E.
  assert (E0 : exists r0, scalar_solve sv 0 0 1 None true = Ok r0).
  { unfold scalar_max_lat in E. destruct (scalar_solve sv 0 0 1 None true) as [r0| |]; try discriminate. eauto. }
  destruct E0 as [r0 E0]. rewrite E0. cbn [bind]. split.
  - intros H. unfold Qlt_bool. destruct (Qle_bool ay (s_ay rl)) eqn:B; [|reflexivity].
    apply Qle_bool_iff in B. lra.
  - intros H Hs M1 M2 Hf [F1 F2] [F3 F4]. unfold Qlt_bool.
    rewrite (proj2 (Qle_bool_iff _ _) H). cbn [negb].
    unfold scalar_solve at 1. cbn [steps].
    match goal with |- context [sc_steady sv ?a ?b ?x] => pose proof (Hs a b x) as Hok; destruct (sc_steady sv a b x) as [ok x1] end.
    cbn in Hok. subst ok. cbn [andb negb bind s_rest s_ax].
    match goal with |- context [sc_max sv ay ?p ?b] => destruct (M1 p b) as (a1 & -> & O1 & A1); cbn [lo hi]; try lra end.
    cbn [bind].
    match goal with |- context [sc_min sv ay ?p ?b] => destruct (M2 p b) as (a2 & -> & O2 & A2); cbn [lo hi]; try lra end.
    cbn [bind]. do 2 eexists. split; [reflexivity|]. cbn [scalar_solution s_ok s_ax s_ay].
    split; [exact O1|]. split; [exact O2|]. cbn [lo hi] in A1, A2.
    rewrite A1, A2. rewrite Q.min_l by lra. rewrite Q.max_l by lra. repeat split; reflexivity.
Qed.

(** *** The diagram *)
Definition candidate sv (x0 : X) (rl : solution X) (ay : Q) : solution X :=
  let '(ok, x) := sc_steady sv ((inject_Z 1 / inject_Z 1) * (s_ax rl * ay / s_ay rl)) ((inject_Z 1 / inject_Z 1) * ay) x0 in
  Solution ok (s_ax rl * ay / s_ay rl) ay x.

(** [rs] is the last solved candidate among the lateral accelerations of [l], or [r0]. *)
Definition last_solved sv (x0 : X) (rl r0 : solution X) (l : list Q) (rs : solution X) : Prop :=
  (rs = r0 /\ Forall (fun ay => s_ok (candidate sv x0 rl ay) = false) l) \/
  exists l1 ay l2, l = l1 ++ ay :: l2 /\ rs = candidate sv x0 rl ay /\ s_ok rs = true /\
    Forall (fun ay => s_ok (candidate sv x0 rl ay) = false) l2.

Lemma last_solved_step sv x0 rl r0 l rs ay : last_solved sv x0 rl r0 l rs ->
  last_solved sv x0 rl r0 (l ++ [ay]) (if s_ok (candidate sv x0 rl ay) then candidate sv x0 rl ay else rs).
Proof.
  intros H. destruct (s_ok (candidate sv x0 rl ay)) eqn:E.
  - right. exists l, ay, []. auto.
  - destruct H as [[-> H]|(l1 & a & l2 & -> & -> & H1 & H2)].
    + left. split; [reflexivity|]. apply Forall_app. auto.
    + right. exists l1, a, (l2 ++ [ay]). rewrite <- app_assoc. split; [reflexivity|]. split; [reflexivity|]. split; [exact H1|].
      apply Forall_app. auto.
Qed.

Definition point_of sv (x0 : X) (rl r0 : solution X) (ay_gg : list Q) (i : nat) (e1 e2 : solution X) : Prop :=
  exists ay rs a1 a2, nth_error ay_gg i = Some ay /\ last_solved sv x0 rl r0 (firstn (S i) ay_gg) rs /\
    sc_max sv ay (Point (s_rest rs) (s_ax rs) 0) (Box (s_ax rl - (1#2)) 8) = Ok a1 /\
    sc_min sv ay (Point (s_rest rs) (s_ax rs) 0) (Box (- (8)) (s_ax rl + (1#2))) = Ok a2 /\
    e1 = Solution (an_ok a1) (pt_ax (an_x a1)) ay (pt_rest (an_x a1)) /\
    e2 = Solution (an_ok a2) (pt_ax (an_x a2)) ay (pt_rest (an_x a2)).

Definition gg_inv sv x0 rl r0 ay_gg (n i : nat) (st : list (solution X) * list (solution X) * solution X) : Prop :=
  let '(smax, smin, rss) := st in
  length smax = n /\ length smin = n /\ last_solved sv x0 rl r0 (firstn i ay_gg) rss /\
  forall j, (j < i)%nat -> exists e1 e2, nth_error smax j = Some e1 /\ nth_error smin j = Some e2 /\
    point_of sv x0 rl r0 ay_gg j e1 e2.

Lemma firstn_snoc {A} (l : list A) i a : nth_error l i = Some a -> firstn (S i) l = firstn i l ++ [a].
Proof.
  revert l. induction i as [|i IH]; intros [|x l] H; try discriminate; cbn in *.
  - congruence.
  - f_equal. apply IH, H.
Qed.

Lemma gg_body_inv sv x0 rl r0 ay_gg n i st st' : length ay_gg = n -> gg_inv sv x0 rl r0 ay_gg n i st ->
  scalar_gg_body sv x0 rl ay_gg i st = Ok st' -> gg_inv sv x0 rl r0 ay_gg n (S i) st'.
Proof.
  intros Hn. destruct st as [[smax smin] rss]. intros (L1 & L2 & LS & HP) H. unfold scalar_gg_body in H.
  unfold rd in H. destruct (nth_error ay_gg i) as [ay|] eqn:Ea; cbn [bind] in H; [|discriminate].
  assert (Hi : (i < n)%nat) by (rewrite <- Hn; apply nth_error_Some; congruence).
  assert (Ec : scalar_solve sv (s_ax rl * ay / s_ay rl) ay 1 (Some x0) false = Ok (candidate sv x0 rl ay)).
  { unfold scalar_solve, candidate. cbn [steps].
    change (inject_Z (Z.of_nat 1)) with (inject_Z 1).
    destruct (sc_steady sv _ _ x0) as [ok x]. reflexivity. }
  rewrite Ec in H. cbn [bind] in H.
  pose proof (last_solved_step sv x0 rl r0 (firstn i ay_gg) rss ay LS) as LS'.
  rewrite <- (firstn_snoc _ _ _ Ea) in LS'.
  set (rs := if s_ok (candidate sv x0 rl ay) then candidate sv x0 rl ay else rss) in *.
  destruct (sc_max sv ay _ _) as [a1| |] eqn:E1; cbn [bind] in H; try discriminate.
  destruct (wr_ok smax i (scalar_solution ay a1)) as (smax' & W1 & W2 & W3 & W4); [lia|]. rewrite W1 in H. cbn [bind] in H.
  destruct (sc_min sv ay _ _) as [a2| |] eqn:E2; cbn [bind] in H; try discriminate.
  destruct (wr_ok smin i (scalar_solution ay a2)) as (smin' & V1 & V2 & V3 & V4); [lia|]. rewrite V1 in H. cbn [bind] in H.
  injection H as <-. split; [lia|]. split; [lia|]. split; [exact LS'|].
  intros j Hj. destruct (Nat.eq_dec j i) as [->|NE].
  - do 2 eexists. split; [exact W3|]. split; [exact V3|]. exists ay, rs, a1, a2. repeat (split; [assumption|]). split; reflexivity.
  - rewrite W4, V4 by exact NE. apply HP. lia.
Qed.

Lemma gg_loop_inv sv x0 rl r0 ay_gg n : length ay_gg = n -> forall k i st st', gg_inv sv x0 rl r0 ay_gg n i st ->
  loop k i (scalar_gg_body sv x0 rl ay_gg) st = Ok st' -> gg_inv sv x0 rl r0 ay_gg n (i + k) st'.
Proof.
  intros Hn. induction k as [|k IH]; intros i st st' HI H; cbn [loop] in H.
  - injection H as <-. rewrite Nat.add_0_r. exact HI.
  - destruct (scalar_gg_body sv x0 rl ay_gg i st) as [st1| |] eqn:E; cbn [bind] in H; try discriminate.
    rewrite <- Nat.add_succ_comm. eapply IH; [|exact H]. eapply gg_body_inv; eassumption.
Qed.

(** A diagram of any number of points: the lateral accelerations are equally spaced from zero to the maximum, in both halves;
    each point is the answer of the optimiser at that lateral acceleration, started from the last steady state that
    was solved, and has its success flag. *)
Theorem C136_diagram_partial sv d0 n smax smin : scalar_gg sv d0 n = Ok (smax, smin) ->
  exists r0 rl, scalar_solve sv 0 0 1 None true = Ok r0 /\ s_ok r0 = true /\ scalar_max_lat sv = Ok rl /\
  length smax = n /\ length smin = n /\
  forall i, (i < n)%nat -> exists e1 e2 rs a1 a2, nth_error smax i = Some e1 /\ nth_error smin i = Some e2 /\
    ((2 <= n)%nat -> s_ay e1 * inject_Z (Z.of_nat (n - 1)) == inject_Z (Z.of_nat i) * s_ay rl) /\ s_ay e2 = s_ay e1 /\
    s_ok rs = true /\
    sc_max sv (s_ay e1) (Point (s_rest rs) (s_ax rs) 0) (Box (s_ax rl - (1#2)) 8) = Ok a1 /\
    sc_min sv (s_ay e1) (Point (s_rest rs) (s_ax rs) 0) (Box (- (8)) (s_ax rl + (1#2))) = Ok a2 /\
    last_solved sv (s_rest r0) rl r0 (firstn (S i) (linspace 0 (s_ay rl) n)) rs /\
    (s_ok e1, s_ax e1, s_rest e1) = (an_ok a1, pt_ax (an_x a1), pt_rest (an_x a1)) /\
    (s_ok e2, s_ax e2, s_rest e2) = (an_ok a2, pt_ax (an_x a2), pt_rest (an_x a2)).
Proof.
  intros H. unfold scalar_gg in H.
  destruct (scalar_solve sv 0 0 1 None true) as [r0| |] eqn:E0; cbn [bind] in H; try discriminate.
  destruct (scalar_max_lat sv) as [rl| |] eqn:El; cbn [bind] in H; try discriminate.
  assert (O0 : s_ok r0 = true).
  { destruct (C136_steady_state_partial sv 0 0 1 None true (le_n 1)) as [[_ C]|(r & C & _ & _ & _ & Hr)];
      rewrite E0 in C; [discriminate|]. injection C as <-. apply Hr. reflexivity. }
  set (ay_gg := linspace 0 (s_ay rl) n) in *.
  assert (Hn : length ay_gg = n) by (unfold ay_gg, linspace; rewrite map_length, seq_length; reflexivity).
  unfold for_range in H. rewrite Nat.sub_0_r in H.
  destruct (loop n 0 _ _) as [[[s1 s2] rs]| |] eqn:EL; cbn [bind] in H; try discriminate. injection H as <- <-.
  assert (I0 : gg_inv sv (s_rest r0) rl r0 ay_gg n 0 (repeat d0 n, repeat d0 n, r0)).
  { split; [apply repeat_length|]. split; [apply repeat_length|]. split.
    - left. split; [reflexivity|]. constructor.
    - intros j Hj. lia. }
  destruct (gg_loop_inv sv (s_rest r0) rl r0 ay_gg n Hn n 0 _ _ I0 EL) as (L1 & L2 & _ & HP).
  exists r0, rl. split; [reflexivity|]. split; [exact O0|]. split; [reflexivity|]. split; [exact L1|]. split; [exact L2|].
  intros i Hi. destruct (HP i ltac:(lia)) as (e1 & e2 & N1 & N2 & ay & rs' & a1 & a2 & Ea & LS & A1 & A2 & -> & ->).
  do 2 eexists. exists rs', a1, a2. split; [exact N1|]. split; [exact N2|]. cbn [s_ay s_ok s_ax s_rest]. split.
  - intros H2. unfold ay_gg, linspace in Ea. rewrite nth_error_map in Ea.
    assert (S1 : nth_error (seq 0 n) i = Some i).
    { rewrite (nth_error_nth' _ 0%nat) by (rewrite seq_length; lia). rewrite seq_nth by lia. reflexivity. }
    rewrite S1 in Ea. cbn [option_map] in Ea. injection Ea as <-. field.
    intro C. apply (proj1 (inject_Z_injective _ 0)) in C. lia.
  - split; [reflexivity|]. split.
    + destruct LS as [[-> _]|(l1 & a & l2 & _ & -> & Hok & _)]; assumption.
    + repeat (split; [assumption|]). split; reflexivity.
Qed.

(** Whatever the number of points (none included), there is a diagram if the optimisers answer and the maximum lateral
    acceleration is found: no array is read or written outside its ends. *)
Theorem C136_always_a_diagram_partial sv d0 n rl : scalar_max_lat sv = Ok rl ->
  (forall y p b, exists a, sc_max sv y p b = Ok a) -> (forall y p b, exists a, sc_min sv y p b = Ok a) ->
  exists smax smin, scalar_gg sv d0 n = Ok (smax, smin) /\ length smax = n /\ length smin = n.
Proof.
  intros El M1 M2.
  assert (E0 : exists r0, scalar_solve sv 0 0 1 None true = Ok r0).
  { unfold scalar_max_lat in El. destruct (scalar_solve sv 0 0 1 None true) as [r0| |]; try discriminate. eauto. }
  destruct E0 as [r0 E0]. unfold scalar_gg. rewrite E0, El. cbn [bind].
  assert (Hn : length (linspace 0 (s_ay rl) n) = n) by (unfold linspace; rewrite map_length, seq_length; reflexivity).
  assert (HL : forall k i s1 s2 rs, (i + k = n)%nat -> length s1 = n -> length s2 = n -> exists t1 t2 rs',
    loop k i (scalar_gg_body sv (s_rest r0) rl (linspace 0 (s_ay rl) n)) (s1, s2, rs) = Ok (t1, t2, rs') /\
    length t1 = n /\ length t2 = n).
  { induction k as [|k IH]; intros i s1 s2 rs Hi H1 H2; [cbn; eauto 6|]. cbn [loop]. unfold scalar_gg_body at 1. unfold rd.
    destruct (nth_error (linspace 0 (s_ay rl) n) i) as [ay|] eqn:Ea; [|apply nth_error_None in Ea; lia].
    cbn [bind]. unfold scalar_solve. cbn [steps]. destruct (sc_steady sv _ _ _) as [ok x]. cbn [andb bind].
    match goal with |- context [sc_max sv ay ?p ?b] => destruct (M1 ay p b) as [a1 ->] end. cbn [bind].
    destruct (wr_ok s1 i (scalar_solution ay a1)) as (s1' & -> & W2 & _); [lia|]. cbn [bind].
    match goal with |- context [sc_min sv ay ?p ?b] => destruct (M2 ay p b) as [a2 ->] end. cbn [bind].
    destruct (wr_ok s2 i (scalar_solution ay a2)) as (s2' & -> & V2 & _); [lia|]. cbn [bind].
    apply IH; lia. }
  unfold for_range. rewrite Nat.sub_0_r.
  destruct (HL n 0%nat (repeat d0 n) (repeat d0 n) r0 eq_refl (repeat_length _ _) (repeat_length _ _)) as (t1 & t2 & rs' & -> & H1 & H2).
  cbn [bind]. eauto.
Qed.

(** With exact optimisers the points are the true extremes where these lie within the fixed bounds. *)
Theorem C136_extremes_partial sv d0 n smax smin rl (f_lo f_hi : Q -> Q) :
  scalar_gg sv d0 n = Ok (smax, smin) -> scalar_max_lat sv = Ok rl ->
  (forall y, maximises_to (f_lo y) (f_hi y) (sc_max sv y)) -> (forall y, minimises_to (f_lo y) (f_hi y) (sc_min sv y)) ->
  forall i e1 e2, nth_error smax i = Some e1 -> nth_error smin i = Some e2 ->
    let y := s_ay e1 in
    f_lo y <= f_hi y -> s_ax rl - (1#2) <= f_hi y <= 8 -> - (8) <= f_lo y <= s_ax rl + (1#2) ->
    s_ok e1 = true /\ s_ok e2 = true /\ s_ax e1 == f_hi y /\ s_ax e2 == f_lo y.
Proof.
  intros H El M1 M2 i e1 e2 N1 N2 y Hf [F1 F2] [F3 F4].
  destruct (C136_diagram_partial sv d0 n smax smin H) as (r0 & rl' & _ & _ & El' & L1 & L2 & HP).
  rewrite El in El'. injection El' as <-.
  assert (Hi : (i < n)%nat) by (rewrite <- L1; apply nth_error_Some; congruence).
  destruct (HP i Hi) as (f1 & f2 & rs & a1 & a2 & G1 & G2 & _ & _ & _ & A1 & A2 & _ & B1 & B2).
  rewrite N1 in G1. rewrite N2 in G2. injection G1 as <-. injection G2 as <-.
  injection B1 as -> -> _. injection B2 as -> -> _. fold y in A1, A2.
  match type of A1 with sc_max _ _ ?p ?b = _ => destruct (M1 y p b) as (c1 & C1 & O1 & V1); cbn [lo hi]; try lra end.
  match type of A2 with sc_min _ _ ?p ?b = _ => destruct (M2 y p b) as (c2 & C2 & O2 & V2); cbn [lo hi]; try lra end.
  rewrite A1 in C1. rewrite A2 in C2. injection C1 as <-. injection C2 as <-.
  split; [exact O1|]. split; [exact O2|]. cbn [lo hi] in V1, V2. rewrite V1, V2.
  rewrite Q.min_l by lra. rewrite Q.max_l by lra. split; reflexivity.
Qed.

(** With the unit of acceleration of the kart (1), a steady state asked for with plain numbers is the one asked for with automatic
    differentiation; with another unit [u] it is the one of accelerations [u] times smaller. *)
Theorem C136_same_equations_partial u sv ax ay x0 r :
  (forall a a' b b' x, a == a' -> b == b' -> sc_steady sv a b x = sc_steady sv a' b' x) -> ~ u == 0 ->
  scalar_solve sv (ax / u) (ay / u) 1 (Some x0) false = Ok r ->
  forall av : solvers X, (forall a b, sv_steady av a b (Some x0) = sc_steady sv a b x0) ->
  let r' := solve u av ax ay (Some x0) in
  s_ok r' = s_ok r /\ s_rest r' = s_rest r /\ s_ax r' == u * s_ax r /\ s_ay r' == u * s_ay r.
Proof.
  intros Hp Hu H av Hs. unfold scalar_solve in H. cbn [steps] in H. unfold solve. rewrite Hs.
  rewrite (Hp _ (ax / u) _ (ay / u) x0) in H.
  - destruct (sc_steady sv (ax / u) (ay / u) x0) as [ok x]. cbn in H. injection H as <-. cbn.
    split; [reflexivity|]. split; [reflexivity|]. split; field; exact Hu.
  - change (inject_Z (Z.of_nat 1)) with 1. field. exact Hu.
  - change (inject_Z (Z.of_nat 1)) with 1. field. exact Hu.
Qed.
End Theorems.

(** *** A concrete car: any longitudinal acceleration between -5 and 6 less a tenth of the lateral one, up to 10 m/s2
    of lateral acceleration. *)
Definition exact_optimiser (lo0 hi0 : Q -> Q) : scalar_solvers unit :=
  ScalarSolvers tt (fun _ _ _ => (true, tt)) (fun _ _ _ => Ok (Answer true (Point tt (1#2) 10)))
    (fun y _ b => Ok (Answer true (Point tt (Qmin (hi0 y) (hi b)) y)))
    (fun y _ b => Ok (Answer true (Point tt (Qmax (lo0 y) (lo b)) y))).
Definition car := exact_optimiser (fun y => - (5) + (1#10) * y) (fun y => 6 - (1#10) * y).

Example C136_case :
  (forall y, maximises_to (- (5) + (1#10) * y) (6 - (1#10) * y) (sc_max car y)) /\
  (forall y, minimises_to (- (5) + (1#10) * y) (6 - (1#10) * y) (sc_min car y)) /\
  exists smax smin e1 e2, scalar_gg car (Solution false 0 0 tt) 3 = Ok (smax, smin) /\
    nth_error smax 1 = Some e1 /\ nth_error smin 1 = Some e2 /\ s_ay e1 == 5 /\ s_ax e1 == 11#2 /\ s_ax e2 == - (9#2).
Proof.
  split; [|split].
  - intros y p b _ _ _. eexists. split; [reflexivity|]. split; reflexivity.
  - intros y p b _ _ _. eexists. split; [reflexivity|]. split; reflexivity.
  - do 4 eexists. split; [reflexivity|]. split; [reflexivity|]. split; [reflexivity|].
    split; [reflexivity|]. split; vm_compute; reflexivity.
Qed.
Example C136_search_case : exists r1 r2, scalar_max_lon 1 car 5 = Ok (r1, r2) /\ s_ax r1 == 11#2 /\ s_ax r2 == - (9#2).
Proof. do 2 eexists. split; [reflexivity|]. split; vm_compute; reflexivity. Qed.

(** A car that reaches 9 m/s2: the diagram says 8 and marks it as solved. *)
Theorem C136_cut_refuted : exists smax smin e,
  scalar_gg (exact_optimiser (fun _ => - (5)) (fun _ => 9)) (Solution false 0 0 tt) 2 = Ok (smax, smin) /\
  nth_error smax 0 = Some e /\ s_ok e = true /\ s_ax e == 8.
Proof. do 3 eexists. split; [reflexivity|]. split; [reflexivity|]. split; [reflexivity|]. vm_compute. reflexivity. Qed.

(** Three steps towards (3, 6) of a solver that returns what it was asked for. *)
Example C136_three_steps : exists r, scalar_solve (ScalarSolvers 0 (fun a b x => (true, x + a)) (fun _ _ _ => Throw)
    (fun _ _ _ => Throw) (fun _ _ _ => Throw)) 3 6 3 None true = Ok r /\ s_rest r == 6.
Proof. eexists. split; [reflexivity|]. vm_compute. reflexivity. Qed.

Print Assumptions C136_steady_state_partial.
Print Assumptions C136_last_step_partial.
Print Assumptions C136_no_steps_refuted.
Print Assumptions C136_lateral_partial.
Print Assumptions C136_longitudinal_partial.
Print Assumptions C136_diagram_partial.
Print Assumptions C136_always_a_diagram_partial.
Print Assumptions C136_extremes_partial.
Print Assumptions C136_same_equations_partial.
Print Assumptions C136_cut_refuted.
