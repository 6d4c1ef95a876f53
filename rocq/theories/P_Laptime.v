(** Theorems on the objective function, the constraints and the exported solution of
    optimal_laptime. *)
From Coq Require Import String QArith Qabs Lqa Bool Arith Lia List.
From Verif Require Import M_Controls S_Controls M_Laptime S_Laptime L_Pack L_Pack2 L_Pack4 P_Controls S_Colloc L_Colloc L_Colloc2 L_Colloc3.
Import ListNotations.
Local Open Scope nat_scope.

(** ** Concrete cases: the car of P_Controls, with two integral quantities, the second one
    restricted. The rates of change are those of the car at each point. *)
Definition ex_carq : car := {|
  n_inputs := 3; n_controls := 4; in_time := 1; st_time := 1; n_extra := 1; integral_names := ["energy"; "wear"]%string;
  eval_states := fun q _ _ => q;
  eval_dstates := fun q u _ => [nth 0 u 0; 1 / nth 0 q 1; nth 3 u 0]%Q;
  eval_extra := fun q _ _ => [nth 2 q 0%Q]; eval_integral := fun q u _ => [nth 0 q 0; nth 0 u 0]%Q;
  differential_ids := [0; 2]; algebraic_ids := [];
  extra_lb := fun _ => [(-5)%Q]; extra_ub := fun _ => [5%Q];
  track_length := 30%Q; left_limit := fun s => (4 + s)%Q; right_limit := fun _ => 6%Q;
  controls_def := [0; 7; 0; 0]%Q; rate_lb := [-1; -1; -1; -1]%Q; rate_ub := [1; 1; 1; 1]%Q |}.
Definition ex_ib : list integral_bound := [MkBound false 0 0; MkBound true 0 1000].
Definition ex_evs : list evaluation := match evaluate_all ex_carq ex_s ex_cs ex_in with Ok e => e | _ => [] end.
Definition ex_evs' : list evaluation := match evaluate_all ex_carq ex_s ex_cs' ex_in with Ok e => e | _ => [] end.

(** result of a computation known to succeed *)
Definition result (r : res fg_state) : fg_state := match r with Ok x => x | _ => (0%Q, ((0, []), [])) end.
Definition succeeds {A} (r : res A) : bool := match r with Ok _ => true | _ => false end.
Lemma result_ok r : succeeds r = true -> r = Ok (fst (result r), (fst (snd (result r)), snd (snd (result r)))).
Proof. destruct r as [[? [? ?]]| |]; [reflexivity|discriminate|discriminate]. Qed.

Example ex_car_ok : car_ok ex_carq.
Proof. split; [reflexivity|split; intros; reflexivity]. Qed.
Example ex_guessq : guess_ok true ex_carq ex_s ex_in ex_cs.
Proof. exact ex_guess. Qed.
Example ex_guessq' : guess_ok false ex_carq ex_s ex_in ex_cs'.
Proof. exact ex_guess'. Qed.

(** The car evaluated along the mesh has evaluations of the sizes the theorems ask for. *)
Theorem C30_evaluations : forall m ib s cs inputs evs,
  (forall row u si id, In id (st_time m :: differential_ids m ++ algebraic_ids m) ->
     id < length (eval_states m row u si) /\ id < length (eval_dstates m row u si)) ->
  (forall row u si, length (eval_extra m row u si) = n_extra m) ->
  (forall row u si, length (eval_integral m row u si) = length ib) ->
  evaluate_all m s cs inputs = Ok evs -> evaluations_ok m ib s evs.
Proof. exact evaluate_all_ok. Qed.

Example ex_evs_ok : evaluations_ok ex_carq ex_ib ex_s ex_evs.
Proof.
  split; [reflexivity|]. intros e He. cbn in He. split; [|].
  - intros id Hid. cbn in Hid. destruct Hid as [<-|[<-|[<-|[]]]]; destruct He as [<-|[<-|[<-|[]]]]; cbn; lia.
  - destruct He as [<-|[<-|[<-|[]]]]; cbn; lia.
Qed.
Example ex_evs'_ok : evaluations_ok ex_carq ex_ib ex_s ex_evs'.
Proof.
  split; [reflexivity|]. intros e He. cbn in He. split; [|].
  - intros id Hid. cbn in Hid. destruct Hid as [<-|[<-|[<-|[]]]]; destruct He as [<-|[<-|[<-|[]]]]; cbn; lia.
  - destruct He as [<-|[<-|[<-|[]]]]; cbn; lia.
Qed.
Example ex_dt : forall i, i < length ex_s -> ~ (dt_at ex_carq ex_evs i == 0)%Q.
Proof. intros i Hi. cbn in Hi. do 3 (destruct i as [|i]; [discriminate|]). lia. Qed.

(** C30: the constraint values and their bounds have the same, declared, number of
    entries, and being between the bounds entry by entry means: on every element the
    discretised equations hold, the extra constraints are between the limits of the same
    point, and every restricted integral quantity is between the limits of the user. *)
Theorem C30_bounds_aligned : forall direct closed m sigma s inputs cs ib evs,
  guess_ok direct m s inputs cs -> car_ok m -> evaluations_ok m ib s evs ->
  (forall i, i < length s -> ~ (dt_at m evs i == 0)%Q) ->
  exists obj cons ints bs,
    fg_call m sigma s cs ib direct closed evs = Ok (obj, ((n_constraints direct closed m (length s) cs ib, cons), ints)) /\
    constraint_bounds m s cs ib direct closed = Ok bs /\
    length cons = n_constraints direct closed m (length s) cs ib /\
    length bs = n_constraints direct closed m (length s) cs ib /\
    (feasible bs cons <->
     (forall e, In e (elements closed (track_length m) s) -> element_satisfied m sigma s cs direct evs e) /\
     integrals_satisfied ib ints).
Proof.
  intros direct closed m sigma s inputs cs ib evs Hg Hc He Hdt.
  exact (constraints_feasible m sigma s cs ib direct inputs evs (guess_facts _ _ _ _ _ Hg) He Hc closed Hdt).
Qed.

Example C30_concrete :
  succeeds (fg_call ex_carq (1 # 2) ex_s ex_cs ex_ib true true ex_evs) = true /\
  n_constraints true true ex_carq (length ex_s) ex_cs ex_ib = 10 /\
  (let '(_, ((k, g), ints)) := result (fg_call ex_carq (1 # 2) ex_s ex_cs ex_ib true true ex_evs) in
   k = 10%nat /\ nth 2 g 0 == 2 /\ nth 9 g 0 == nth 1 ints 0)%Q /\
  (match constraint_bounds ex_carq ex_s ex_cs ex_ib true true with Ok bs => nth 2 bs (0, 0)%Q = (-5, 5)%Q /\ nth 9 bs (0, 0)%Q = (0, 1000)%Q | _ => False end) /\
  (forall i, i < length ex_s -> ~ (dt_at ex_carq ex_evs i == 0)%Q).
Proof.
  split; [vm_compute; reflexivity|]. split; [reflexivity|]. split; [vm_compute; auto|]. split; [|exact ex_dt].
  vm_compute. auto.
Qed.

(** C31: the exported times are the quadrature of dt/ds, and the lap time is the time part
    of the objective. [full_sum] adds the penalties of the controls of full-mesh type. *)
Theorem C31_laptime_is_objective : forall direct closed m sigma s inputs cs ib evs t0,
  guess_ok direct m s inputs cs -> car_ok m -> evaluations_ok m ib s evs ->
  exists times lap obj rest,
    export_time m sigma s closed evs t0 = Ok (times, lap) /\
    fg_call m sigma s cs ib direct closed evs = Ok (obj, rest) /\
    length times = length s /\
    (forall i, (i < length s)%nat -> nth i times 0 == t0 + quadrature sigma (dt_at m evs) (firstn i (inner_elements s)))%Q /\
    (lap == t0 + quadrature sigma (dt_at m evs) (elements closed (track_length m) s))%Q /\
    (direct = true -> obj == (lap - t0) + full_sum cs (slope_penalty (elements closed (track_length m) s)))%Q /\
    ((forall c, In c cs -> c_dissipation c == 0) -> obj == lap - t0)%Q.
Proof.
  intros direct closed m sigma s inputs cs ib evs t0 Hg Hc He. pose proof (guess_facts _ _ _ _ _ Hg) as F.
  destruct (export_spec m sigma s cs ib direct inputs evs F He closed t0) as (times & lap & E1 & Hl & Ht & Hlap).
  assert (Hint : (0 <? n_restricted ib) = true \/ n_restricted ib = 0) by (destruct (n_restricted ib); auto).
  destruct (fg_total m sigma s cs ib direct inputs evs F He Hc closed _ Hint) as (obj & ints & E2 & Ho & _ & _).
  exists times, lap, obj. eexists. split; [exact E1|]. split; [exact E2|]. split; [exact Hl|]. split; [exact Ht|]. split; [exact Hlap|].
  split.
  - intros ->. rewrite Ho, Hlap. unfold penalty. ring.
  - intros Hz. rewrite Ho, Hlap.
    assert (Hp : (penalty m s cs direct closed == 0)%Q).
    { unfold penalty, full_sum, slope_penalty, rate_penalty. destruct direct.
      - apply sum_zero. intros c Hin. destruct (kind_eqb _ _); [|reflexivity]. apply sum_zero. intros e _. rewrite (Hz c Hin). ring.
      - rewrite !sum_zero; [ring| |].
        + intros c Hin. destruct (kind_eqb _ _); [|reflexivity]. apply sum_zero. intros e _. rewrite (Hz c Hin). ring.
        + intros c Hin. destruct (kind_eqb _ _); [|reflexivity]. apply sum_zero. intros e _. rewrite (Hz c Hin). ring. }
    rewrite Hp. ring.
Qed.

Example C31_concrete : match export_time ex_carq (1 # 4) ex_s true ex_evs 3 with
  | Ok (times, lap) => lap == 3 + 10 * ((3 # 4) * (1 # 50) + (1 # 4) * (1 # 51)) + 10 * ((3 # 4) * (1 # 51) + (1 # 4) * (1 # 52)) +
          10 * ((3 # 4) * (1 # 52) + (1 # 4) * (1 # 50))
  | _ => False end%Q.
Proof. vm_compute. reflexivity. Qed.

(** C32: integral quantities. On open tracks, and on closed tracks with sigma = 1/2, each
    quantity is the quadrature of its rate over all elements. In general the closing
    element of a closed track exchanges the two weights. *)
Theorem C32_open : forall direct m sigma s inputs cs ib evs,
  guess_ok direct m s inputs cs -> car_ok m -> evaluations_ok m ib s evs ->
  exists obj cons ints, fg_compute m sigma s cs ib direct false true evs = Ok (obj, (cons, ints)) /\ length ints = length ib /\
    forall j, (nth j ints 0 == quadrature sigma (integrand_at evs j) (elements false (track_length m) s))%Q.
Proof.
  intros direct m sigma s inputs cs ib evs Hg Hc He. pose proof (guess_facts _ _ _ _ _ Hg) as F.
  destruct (fg_total m sigma s cs ib direct inputs evs F He Hc false true (or_introl eq_refl)) as (obj & ints & E & _ & Hl & Hv).
  eexists obj, _, ints. split; [exact E|]. split; [exact Hl|]. exact Hv.
Qed.

Theorem C32_closed_partial : forall direct m sigma s inputs cs ib evs,
  guess_ok direct m s inputs cs -> car_ok m -> evaluations_ok m ib s evs ->
  exists obj cons ints, fg_compute m sigma s cs ib direct true true evs = Ok (obj, (cons, ints)) /\ length ints = length ib /\
    forall j, (nth j ints 0 == quadrature sigma (integrand_at evs j) (elements true (track_length m) s)
      + (track_length m - nth (length s - 1) s 0) * (1 - 2 * sigma) * (integrand_at evs j 0 - integrand_at evs j (length s - 1)))%Q.
Proof.
  intros direct m sigma s inputs cs ib evs Hg Hc He. pose proof (guess_facts _ _ _ _ _ Hg) as F.
  destruct (fg_total m sigma s cs ib direct inputs evs F He Hc true true (or_introl eq_refl)) as (obj & ints & E & _ & Hl & Hv).
  eexists obj, _, ints. split; [exact E|]. split; [exact Hl|]. intros j. rewrite (Hv j). apply swapped_quadrature.
Qed.

Theorem C32_closed_half_partial : forall direct m s inputs cs ib evs,
  guess_ok direct m s inputs cs -> car_ok m -> evaluations_ok m ib s evs ->
  exists obj cons ints, fg_compute m (1 # 2) s cs ib direct true true evs = Ok (obj, (cons, ints)) /\ length ints = length ib /\
    forall j, (nth j ints 0 == quadrature (1 # 2) (integrand_at evs j) (elements true (track_length m) s))%Q.
Proof.
  intros direct m s inputs cs ib evs Hg Hc He.
  destruct (C32_closed_partial direct m (1 # 2) s inputs cs ib evs Hg Hc He) as (obj & cons & ints & E & Hl & Hv).
  exists obj, cons, ints. split; [exact E|]. split; [exact Hl|]. intros j. rewrite (Hv j). ring.
Qed.

(** Moving the starting line [k] points forward does not change the quadrature over a
    closed track. *)
Theorem C32_quadrature_rotation : forall sigma L k nodes, 2 <= length nodes -> (fst (nth 0 nodes (0, 0)) == 0)%Q ->
  (closed_quadrature sigma L (nth_start L k nodes) == closed_quadrature sigma L nodes)%Q.
Proof. exact rotations. Qed.

(** Hence, with sigma = 1/2, the integral quantities computed from the next starting point
    are the same. [m'] is the car on the same track measured from the new line. *)
Theorem C32_start_line_half_partial : forall direct m m' s inputs inputs' cs cs' ib evs,
  guess_ok direct m s inputs cs -> car_ok m -> evaluations_ok m ib s evs -> (nth 0 s 0 == 0)%Q ->
  guess_ok direct m' (shift_mesh (track_length m) s) inputs' cs' -> car_ok m' ->
  evaluations_ok m' ib (shift_mesh (track_length m) s) (rotate evs) -> track_length m' = track_length m ->
  exists o c i o' c' i', fg_compute m (1 # 2) s cs ib direct true true evs = Ok (o, (c, i)) /\
    fg_compute m' (1 # 2) (shift_mesh (track_length m) s) cs' ib direct true true (rotate evs) = Ok (o', (c', i')) /\
    forall j, (nth j i' 0 == nth j i 0)%Q.
Proof.
  intros direct m m' s inputs inputs' cs cs' ib evs Hg Hc He Hz Hg' Hc' He' HL.
  destruct (C32_closed_half_partial direct m s inputs cs ib evs Hg Hc He) as (o & c & i & E1 & _ & V1).
  destruct (C32_closed_half_partial direct m' _ inputs' cs' ib _ Hg' Hc' He') as (o' & c' & i' & E2 & _ & V2).
  exists o, c, i, o', c', i'. split; [exact E1|]. split; [exact E2|]. intros j. rewrite (V1 j), (V2 j), HL.
  assert (Hn : 2 <= length s) by apply Hg. assert (Hl : length evs = length s) by apply He.
  assert (Hl' : length (rotate evs) = length (shift_mesh (track_length m) s)) by apply He'.
  rewrite <- !quadrature_nodes by assumption. rewrite nodes_shift by assumption.
  apply rotation.
  - unfold nodes. rewrite combine_length, map_length. lia.
  - unfold nodes. destruct s as [|a s], evs as [|e evs]; cbn in *; try lia. exact Hz.
Qed.

Example C32_start_line_concrete :
  guess_ok true ex_carq (shift_mesh (track_length ex_carq) ex_s) (rotate ex_in) ex_cs /\
  evaluations_ok ex_carq ex_ib (shift_mesh (track_length ex_carq) ex_s) (rotate ex_evs) /\ (nth 0 ex_s 0 == 0)%Q.
Proof.
  split; [|split; [|reflexivity]].
  - destruct ex_guess as (H1 & H2 & H3 & H4 & H5). split; [exact H1|]. split; [reflexivity|]. split; [exact H3|]. split; [exact H4|].
    intros r Hr. apply H5. cbn in *. tauto.
  - destruct ex_evs_ok as [H1 H2]. split; [reflexivity|]. intros e He. apply H2. unfold rotate in He.
    destruct ex_evs as [|e0 r]; [destruct He|]. apply in_app_or in He. destruct He as [He|[He|[]]]; [right|left]; assumption.
Qed.

(** The full property is false for other weights: sigma = 1, three points, the second
    quantity of [ex_carq]. *)
Theorem C32_refuted : exists direct m sigma s inputs cs ib evs obj cons ints,
  guess_ok direct m s inputs cs /\ car_ok m /\ evaluations_ok m ib s evs /\
  fg_compute m sigma s cs ib direct true true evs = Ok (obj, (cons, ints)) /\
  ~ (nth 1 ints 0 == quadrature sigma (integrand_at evs 1) (elements true (track_length m) s))%Q.
Proof.
  exists true, ex_carq, 1%Q, ex_s, ex_in, ex_cs, ex_ib, ex_evs.
  eexists _, _, _. split; [exact ex_guessq|]. split; [exact ex_car_ok|]. split; [exact ex_evs_ok|].
  split; [apply result_ok; vm_compute; reflexivity|]. vm_compute. discriminate.
Qed.

(** C33: penalty of the controls in the objective. *)
Theorem C33_direct : forall closed m sigma s inputs cs ib evs,
  guess_ok true m s inputs cs -> car_ok m -> evaluations_ok m ib s evs ->
  exists obj rest, fg_call m sigma s cs ib true closed evs = Ok (obj, rest) /\
    (obj == quadrature sigma (dt_at m evs) (elements closed (track_length m) s)
            + full_sum cs (slope_penalty (elements closed (track_length m) s)))%Q.
Proof.
  intros closed m sigma s inputs cs ib evs Hg Hc He. pose proof (guess_facts _ _ _ _ _ Hg) as F.
  assert (Hint : (0 <? n_restricted ib) = true \/ n_restricted ib = 0) by (destruct (n_restricted ib); auto).
  destruct (fg_total m sigma s cs ib true inputs evs F He Hc closed _ Hint) as (obj & ints & E2 & Ho & _ & _).
  eexists obj, _. split; [exact E2|]. exact Ho.
Qed.

(** In the derivative formulation the left value used on every inner element is the one of
    the first point. *)
Theorem C33_derivative_partial : forall closed m sigma s inputs cs ib evs,
  guess_ok false m s inputs cs -> car_ok m -> evaluations_ok m ib s evs ->
  exists obj rest, fg_call m sigma s cs ib false closed evs = Ok (obj, rest) /\
    (obj == quadrature sigma (dt_at m evs) (elements closed (track_length m) s)
            + full_sum cs (rate_penalty (elements closed (track_length m) s))
            + full_sum cs (fun c => sum (fun e => (1 # 2) * c_dissipation c *
                (rate c 0 * rate c 0 - rate c (el_l e) * rate c (el_l e)) * el_ds e) (inner_elements s)))%Q.
Proof.
  intros closed m sigma s inputs cs ib evs Hg Hc He. pose proof (guess_facts _ _ _ _ _ Hg) as F.
  assert (Hint : (0 <? n_restricted ib) = true \/ n_restricted ib = 0) by (destruct (n_restricted ib); auto).
  destruct (fg_total m sigma s cs ib false inputs evs F He Hc closed _ Hint) as (obj & ints & E2 & Ho & _ & _).
  eexists obj, _. split; [exact E2|]. rewrite Ho. unfold penalty. ring.
Qed.

(** It is the trapezoidal quadrature when there is one inner element only. *)
Theorem C33_two_points_partial : forall closed m sigma s inputs cs ib evs,
  guess_ok false m s inputs cs -> car_ok m -> evaluations_ok m ib s evs -> length s = 2 ->
  exists obj rest, fg_call m sigma s cs ib false closed evs = Ok (obj, rest) /\
    (obj == quadrature sigma (dt_at m evs) (elements closed (track_length m) s)
            + full_sum cs (rate_penalty (elements closed (track_length m) s)))%Q.
Proof.
  intros closed m sigma s inputs cs ib evs Hg Hc He Hn.
  destruct (C33_derivative_partial closed m sigma s inputs cs ib evs Hg Hc He) as (obj & rest & E & Ho).
  exists obj, rest. split; [exact E|]. rewrite Ho.
  assert (Hz : (full_sum cs (fun c => sum (fun e => (1 # 2) * c_dissipation c *
                (rate c 0 * rate c 0 - rate c (el_l e) * rate c (el_l e)) * el_ds e) (inner_elements s)) == 0)%Q).
  { unfold full_sum. apply sum_zero. intros c _. destruct (kind_eqb _ _); [|reflexivity]. unfold inner_elements. rewrite Hn. cbn. ring. }
  rewrite Hz. ring.
Qed.

Theorem C33_refuted : exists m sigma s inputs cs ib evs obj rest,
  guess_ok false m s inputs cs /\ car_ok m /\ evaluations_ok m ib s evs /\
  fg_call m sigma s cs ib false false evs = Ok (obj, rest) /\
  ~ (obj == quadrature sigma (dt_at m evs) (elements false (track_length m) s)
            + full_sum cs (rate_penalty (elements false (track_length m) s)))%Q.
Proof.
  exists ex_carq, (1 # 2)%Q, ex_s, ex_in, ex_cs', ex_ib, ex_evs'.
  eexists _, _. split; [exact ex_guessq'|]. split; [exact ex_car_ok|]. split; [exact ex_evs'_ok|].
  split; [apply result_ok; vm_compute; reflexivity|]. vm_compute. discriminate.
Qed.

(** C34: meshes accepted, and what is stored. *)
Theorem C34_accepted_partial : forall closed L s s', check_mesh closed L s = Ok s' <->
  2 <= length s /\
  if closed then (Qabs (nth 0 s 0) <= 1 # 10 ^ 12 /\ nth (length s - 1) s 0 <= L - (1 # 10 ^ 10))%Q /\ s' = 0%Q :: tl s
  else (- (1 # 10 ^ 12) <= nth 0 s 0 /\ nth (length s - 1) s 0 <= L)%Q /\ s' = s.
Proof. exact check_mesh_iff. Qed.

Example C34_concrete : check_mesh true 30 ex_s = Ok ex_s /\ check_mesh false 20 ex_s = Ok ex_s /\ check_mesh true 20 ex_s = Throw.
Proof. vm_compute. auto. Qed.

(** A mesh that goes back, and one with a point outside the track, are accepted. *)
Theorem C34_refuted : forall closed, exists L s s',
  check_mesh closed L s = Ok s' /\ ~ increasing s' /\ (exists x, In x s' /\ (L < x)%Q) /\
  exists e, In e (inner_elements s') /\ (el_ds e <= 0)%Q.
Proof.
  intros closed. exists 30%Q, [0; 40; 20]%Q, [0; 40; 20]%Q. split; [destruct closed; reflexivity|]. split; [|split].
  - intros H. specialize (H 1 2 ltac:(cbn; lia)). vm_compute in H. discriminate.
  - exists 40%Q. split; [right; left; reflexivity|reflexivity].
  - exists (MkEl 1 2 (20 - 40)%Q). split; [right; left; reflexivity|]. vm_compute. discriminate.
Qed.

(** C35: clean-up of the sensitivities. *)
Theorem C35_inputs_partial : forall din dcs din' dcs', clean_sensitivity false din dcs = Ok (din', dcs') ->
  length din' = length din /\ (forall i, 0 < i -> nth i din' [] = nth i din []) /\
  (forall x, In x (nth 0 din' []) -> x = 0%Q) /\ length (nth 0 din' []) = length (nth 0 din []) /\
  length dcs' = length dcs /\ (forall j, 0 < j -> nth_error dcs' j = nth_error dcs j).
Proof. exact clean_inputs. Qed.

Theorem C35_closed : forall din dcs, clean_sensitivity true din dcs = Ok (din, dcs).
Proof. reflexivity. Qed.

Example C35_concrete : exists din' dcs', clean_sensitivity false ex_in ex_cs' = Ok (din', dcs') /\ nth 0 din' [] = [0; 0; 0]%Q /\ nth 1 din' [] = [51; 4; 2]%Q.
Proof. eexists _, _. split; [reflexivity|]. split; reflexivity. Qed.

(** The derivatives of the first control are lost at every point, and those of the other
    controls are not pinned. *)
Theorem C35_refuted : exists din dcs din' dcs', clean_sensitivity false din dcs = Ok (din', dcs') /\
  ~ sensitivity_pinned din dcs din' dcs' /\
  (exists c c', nth_error dcs 0 = Some c /\ nth_error dcs' 0 = Some c' /\ ~ (value c 1 == 0)%Q /\ (value c' 1 == 0)%Q) /\
  (exists c c', nth_error dcs 3 = Some c /\ nth_error dcs' 3 = Some c' /\ c_kind c = FULL_MESH /\ ~ (value c' 0 == 0)%Q).
Proof.
  exists ex_in, ex_cs'. eexists _, _. split; [reflexivity|]. split; [|split].
  - intros (_ & _ & H). specialize (H 0 _ _ eq_refl eq_refl). cbn in H. destruct H as [[_ H] _]. specialize (H 1 ltac:(cbn; lia)).
    vm_compute in H. discriminate.
  - eexists _, _. split; [reflexivity|]. split; [reflexivity|]. split; [vm_compute; discriminate|reflexivity].
  - eexists _, _. split; [reflexivity|]. split; [reflexivity|]. split; [reflexivity|vm_compute; discriminate].
Qed.

(** C67: a warm start is accepted exactly when its multipliers have the sizes of the problem. *)
Theorem C67_warm_start : forall nv nc zl zu lambda,
  check_warm_start nv nc zl zu lambda = Ok tt <-> length zl = nv /\ length zu = nv /\ length lambda = nc.
Proof. exact warm_start_iff. Qed.
Example C67_concrete : check_warm_start 2 1 [1; 2]%Q [3; 4]%Q [5]%Q = Ok tt /\ check_warm_start 2 1 [1; 2]%Q [3; 4]%Q [5; 6]%Q = Throw.
Proof. split; reflexivity. Qed.

(** C68: limits on integral quantities are attached by name. *)
Theorem C68_integral_names : forall names conf, NoDup names ->
  match set_integrals names conf with
  | Ok ib => incl (map fst conf) names /\ length ib = length names /\
      forall i x, nth_error names i = Some x ->
        nth_error ib i = Some (match last_mention x conf with
                               | Some b => MkBound true (fst b) (snd b)
                               | None => MkBound false (- dbl_max) dbl_max
                               end)
  | Throw => ~ incl (map fst conf) names
  | UB => False
  end.
Proof. exact set_integrals_spec. Qed.
Example C68_concrete : set_integrals (integral_names ex_carq) [("wear", (0, 1000))]%string%Q = Ok [MkBound false (- dbl_max) dbl_max; MkBound true 0 1000] /\
  set_integrals (integral_names ex_carq) [("speed", (0, 1000))]%string%Q = Throw.
Proof. split; reflexivity. Qed.

Print Assumptions C30_bounds_aligned.
Print Assumptions C31_laptime_is_objective.
Print Assumptions C32_start_line_half_partial.
Print Assumptions C32_refuted.
Print Assumptions C33_direct.
Print Assumptions C33_two_points_partial.
Print Assumptions C33_refuted.
Print Assumptions C34_accepted_partial.
Print Assumptions C35_refuted.
Print Assumptions C68_integral_names.
