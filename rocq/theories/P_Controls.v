(** Property theorems C26-C29: control variables and the vector handed to the solver. *)
From Coq Require Import QArith Bool Arith Lia List.
From Verif Require Import M_Controls S_Controls L_Controls M_Laptime S_Laptime L_Pack L_Pack2 L_Pack3 L_Pack4.
Import ListNotations.
Local Open Scope nat_scope.

(** *** C26 *)
Theorem C26_hypermesh_lookup_partial : forall c s,
  c_kind c = HYPERMESH -> c_hypermesh c <> [] -> sorted (c_hypermesh c) ->
  length (c_values c) = length (c_hypermesh c) ->
  match hypermesh_value c s with
  | Ok v => value_in_force (c_hypermesh c) (c_values c) s v
  | Throw => before_all (c_hypermesh c) s
  | UB => False
  end.
Proof. exact hypermesh_lookup. Qed.

Theorem C26_value_in_force_unique : forall mesh values s v w,
  value_in_force mesh values s v -> value_in_force mesh values s w -> v = w.
Proof. exact value_in_force_unique. Qed.

Theorem C26_found_from_first_point_on_partial : forall c s,
  c_kind c = HYPERMESH -> c_hypermesh c <> [] -> sorted (c_hypermesh c) ->
  length (c_values c) = length (c_hypermesh c) ->
  (nth 0 (c_hypermesh c) 0 <= s)%Q <-> exists v, hypermesh_value c s = Ok v.
Proof. exact hypermesh_found. Qed.

(** the lookup stays inside of the vectors whatever the order of the mesh *)
Theorem C26_lookup_in_bounds_partial : forall c s,
  c_hypermesh c <> [] -> length (c_values c) = length (c_hypermesh c) -> hypermesh_value c s <> UB.
Proof. exact hypermesh_safe. Qed.

(** a hypermesh without points passes the check, and the error message of the lookup
    reads its first point *)
Theorem C26_empty_hypermesh_refuted : exists c c', check_control c = Ok c' /\ c_kind c' = HYPERMESH /\
  forall s, hypermesh_value c' s = UB.
Proof.
  exists (MkControl HYPERMESH [] [] [] 0), (MkControl HYPERMESH [] [] [] 0).
  split; [reflexivity|]. split; [reflexivity|]. intros s. apply hypermesh_empty_ub; reflexivity.
Qed.

Definition ex_hyper : control_variable := MkControl HYPERMESH [0; 100; 250]%Q [1; 2; 3]%Q [] 0.
Example C26_sorted : sorted (c_hypermesh ex_hyper).
Proof. intros i j Hij Hj. cbn in Hj. destruct i as [|[|[|i]]], j as [|[|[|j]]]; cbn; try lia; discriminate. Qed.
Example C26_concrete : hypermesh_value ex_hyper 249 = Ok 2%Q /\ hypermesh_value ex_hyper 250 = Ok 3%Q /\
  hypermesh_value ex_hyper (-1) = Throw.
Proof. repeat split; vm_compute; reflexivity. Qed.

(** *** C27 *)
Theorem C27_checked_reads_in_bounds_partial : forall cs cs' defaults n i s,
  check_controls cs = Ok cs' ->
  (forall c, In c cs -> c_kind c = FULL_MESH -> length (c_values c) = n) ->
  (forall c, In c cs -> c_kind c = HYPERMESH -> c_hypermesh c <> []) ->
  i < n -> control_array_at_s cs' defaults i s <> UB.
Proof. exact control_array_safe. Qed.

Theorem C27_checked_values_found_partial : forall cs cs' defaults n i s,
  check_controls cs = Ok cs' ->
  (forall c, In c cs -> c_kind c = FULL_MESH -> length (c_values c) = n) ->
  (forall c, In c cs -> c_kind c = HYPERMESH ->
     c_hypermesh c <> [] /\ sorted (c_hypermesh c) /\ (nth 0 (c_hypermesh c) 0 <= s)%Q) ->
  i < n -> exists v, control_array_at_s cs' defaults i s = Ok v.
Proof. exact control_array_found. Qed.

(** the value given to each control is the default one when it is not optimised, its only value when it is constant,
    the one of the mesh point when it is on the full mesh and the one in force when it is on a hypermesh; its rate
    is zero unless it is on the full mesh *)
Theorem C27_value_of_each_kind : forall cs defaults i s v r,
  length defaults = length cs ->
  control_array_and_derivative_at_s cs defaults i s = Ok (v, r) ->
  length v = length cs /\ length r = length cs /\
  forall j c x y, nth_error cs j = Some c -> nth_error v j = Some x -> nth_error r j = Some y ->
    (c_kind c = DONT_OPTIMIZE -> nth_error defaults j = Some x /\ y = 0%Q) /\
    (c_kind c = CONSTANT -> nth_error (c_values c) 0 = Some x /\ y = 0%Q) /\
    (c_kind c = HYPERMESH -> sorted (c_hypermesh c) -> length (c_values c) = length (c_hypermesh c) ->
       value_in_force (c_hypermesh c) (c_values c) s x /\ y = 0%Q) /\
    (c_kind c = FULL_MESH -> nth_error (c_values c) i = Some x /\ nth_error (c_rates c) i = Some y).
Proof.
  intros cs defaults i s v r Hd H. unfold control_array_and_derivative_at_s in H.
  destruct (control_array_at_s cs defaults i s) as [v'| |] eqn:Ev; try discriminate. cbn [bind] in H.
  destruct (all_ok (map (fun c => rate_at c i) cs)) as [r'| |] eqn:Er; try discriminate. injection H as <- <-.
  unfold control_array_at_s in Ev. apply all_ok_inv in Ev as [L1 V]. apply all_ok_inv in Er as [L2 R].
  rewrite map_length, combine_length in L1. rewrite map_length in L2.
  split; [lia|]. split; [lia|]. intros j c x y Hc Hx Hy.
  assert (Hj : j < length cs) by (apply nth_error_Some; congruence).
  destruct (nth_error defaults j) as [d|] eqn:Ed; [|apply nth_error_None in Ed; lia].
  apply V in Hx. apply R in Hy. rewrite nth_error_map in Hx, Hy. rewrite Hc in Hy. injection Hy as Hy.
  assert (Ec : nth_error (combine cs defaults) j = Some (c, d)).
  { clear - Hc Ed. revert j defaults Hc Ed. induction cs as [|c0 cs IH]; intros [|j] [|d0 ds] Hc Ed; cbn in *; try discriminate.
    - injection Hc as ->. now injection Ed as ->.
    - now apply IH. }
  rewrite Ec in Hx. injection Hx as Hx. cbn [fst snd] in Hx. unfold control_at_s in Hx. unfold rate_at in Hy.
  split; [|split; [|split]]; intro K; rewrite K in Hx, Hy.
  - injection Hx as ->. injection Hy as <-. now split.
  - injection Hy as <-. unfold rd in Hx. destruct (nth_error (c_values c) 0); [injection Hx as ->; now split|discriminate].
  - intros Hs Hl. injection Hy as <-. split; [|reflexivity].
    destruct (c_hypermesh c) as [|a l] eqn:Em.
    + exfalso. unfold hypermesh_value in Hx. rewrite K, Em in Hx. discriminate.
    + rewrite <- Em in *. assert (Hn : c_hypermesh c <> []) by (rewrite Em; discriminate).
      pose proof (hypermesh_lookup c s K Hn Hs Hl) as HL. now rewrite Hx in HL.
  - unfold rd in Hx, Hy. destruct (nth_error (c_values c) i); [|discriminate]. destruct (nth_error (c_rates c) i); [|discriminate].
    injection Hx as ->. injection Hy as ->. now split.
Qed.

Definition ex_four : list control_variable :=
  [MkControl DONT_OPTIMIZE [] [] [] 0; MkControl CONSTANT [] [7%Q] [] 0; MkControl HYPERMESH [0; 100]%Q [1; 2]%Q [] 0;
   MkControl FULL_MESH [] [3; 4]%Q [5; 6]%Q 0].
Example C27_four_kinds :
  control_array_and_derivative_at_s ex_four [9; 9; 9; 9]%Q 1 100 = Ok ([9; 7; 2; 4]%Q, [0; 0; 0; 6]%Q).
Proof. vm_compute. reflexivity. Qed.

Theorem C27_checked_rates_found_partial : forall cs cs' n i,
  check_controls cs = Ok cs' ->
  (forall c, In c cs -> c_kind c = FULL_MESH -> length (c_rates c) = n) ->
  i < n -> exists v, all_ok (map (fun c => rate_at c i) cs') = Ok v.
Proof. exact rates_found. Qed.

(** the counts are the numbers of controls of each kind and of hypermesh points *)
Theorem C27_counts : forall cs,
  count_constant cs = length (filter (fun c => kind_eqb (c_kind c) CONSTANT) cs) /\
  count_full cs = length (filter (fun c => kind_eqb (c_kind c) FULL_MESH) cs) /\
  count_hypermesh_points cs =
    length (flat_map c_hypermesh (filter (fun c => kind_eqb (c_kind c) HYPERMESH) cs)).
Proof. exact counts_spec. Qed.

(** the checks repair nothing but the dissipation, so that checking again changes
    nothing *)
Theorem C27_check_idempotent : forall cs cs', check_controls cs = Ok cs' -> check_controls cs' = Ok cs'.
Proof.
  intros cs cs' H. apply all_checked_again. intros j c E.
  destruct (proj2 (check_controls_checked _ _ H) j c E) as (? & _ & ? & _). assumption.
Qed.

(** Control_variable::operator()(s) for hypermeshes reads derivatives that the check
    requires to be absent *)
Theorem C27_value_and_rate_lookup_refuted : forall cs cs' c s,
  check_controls cs = Ok cs' -> In c cs' -> c_kind c = HYPERMESH ->
  forall v, hypermesh_value c s = Ok v -> hypermesh_value_and_rate c s = UB.
Proof. exact dead_lookup. Qed.

Theorem C27_empty_hypermesh_refuted : exists cs cs', check_controls cs = Ok cs' /\
  forall s, control_array_at_s cs' [0%Q] 0 s = UB.
Proof.
  exists [MkControl HYPERMESH [] [] [] 0], [MkControl HYPERMESH [] [] [] 0].
  split; reflexivity.
Qed.

(** *** A car with three inputs (speed, time, lateral displacement) and four controls, one
    of each kind. *)
Definition ex_car : car := {|
  n_inputs := 3; n_controls := 4; in_time := 1; st_time := 1; n_extra := 1; integral_names := [];
  eval_states := fun q _ _ => q;
  eval_dstates := fun q u _ => [nth 0 u 0; 1 / nth 0 q 1; nth 3 u 0]%Q;
  eval_extra := fun q _ _ => [nth 2 q 0%Q]; eval_integral := fun _ _ _ => [];
  differential_ids := [0; 2]; algebraic_ids := [];
  extra_lb := fun _ => [(-5)%Q]; extra_ub := fun _ => [5%Q];
  track_length := 30%Q; left_limit := fun s => (4 + s)%Q; right_limit := fun _ => 6%Q;
  controls_def := [0; 7; 0; 0]%Q; rate_lb := [-1; -1; -1; -1]%Q; rate_ub := [1; 1; 1; 1]%Q |}.
Definition ex_opts : options := MkOptions (1 # 2) [1; 0; -9]%Q [99; 0; 9]%Q [-2; -3; -4; -5]%Q [2; 3; 4; 5]%Q [].
Definition ex_s : list Q := [0; 10; 20]%Q.
Definition ex_in : list (list Q) := [[50; 3; 1]; [51; 4; 2]; [52; 5; 3]]%Q.
Definition ex_cs : list control_variable :=
  [MkControl FULL_MESH [] [11; 12; 13]%Q [] 1; MkControl DONT_OPTIMIZE [] [] [] 0;
   MkControl HYPERMESH [0; 15]%Q [21; 22]%Q [] 0; MkControl CONSTANT [] [31]%Q [] 0].
(** ... and for the derivative formulation *)
Definition ex_cs' : list control_variable :=
  [MkControl FULL_MESH [] [11; 12; 13]%Q [1; 2; 3]%Q 1; MkControl DONT_OPTIMIZE [] [] [] 0;
   MkControl HYPERMESH [0; 15]%Q [21; 22]%Q [] 0; MkControl FULL_MESH [] [4; 5; 6]%Q [7; 8; 9]%Q 0].

Example ex_sizes : sizes_ok ex_car ex_opts.
Proof. unfold sizes_ok. cbn. repeat split; lia. Qed.
Example ex_guess : guess_ok true ex_car ex_s ex_in ex_cs.
Proof.
  split; [exists ex_cs; vm_compute; reflexivity|]. split; [vm_compute; reflexivity|]. cbn. split; [lia|].
  split; [reflexivity|]. intros r [<-|[<-|[<-|[]]]]; reflexivity.
Qed.
Example ex_guess' : guess_ok false ex_car ex_s ex_in ex_cs'.
Proof.
  split; [exists ex_cs'; vm_compute; reflexivity|]. split; [vm_compute; reflexivity|]. cbn. split; [lia|].
  split; [reflexivity|]. intros r [<-|[<-|[<-|[]]]]; reflexivity.
Qed.
Example ex_rates : rates_bounded ex_car ex_cs'.
Proof. intros j c E _. assert (j < 4) by (apply (nth_error_Some ex_cs'); congruence). cbn. lia. Qed.
Example ex_no_constant : no_constant ex_cs'.
Proof. intros c [<-|[<-|[<-|[<-|[]]]]]; discriminate. Qed.
Example ex_start : start_of true ex_car ex_s ex_in ex_cs [50; 3; 1]%Q [11; 7; 21; 31]%Q [].
Proof. split; [reflexivity|vm_compute; reflexivity]. Qed.
Example ex_start' : start_of false ex_car ex_s ex_in ex_cs' [50; 3; 1]%Q [11; 7; 21; 4]%Q [1; 0; 0; 7]%Q.
Proof. split; [reflexivity|vm_compute; reflexivity]. Qed.

(** *** C28: the direct formulation *)
Theorem C28_pack_size : forall m o s inputs cs closed,
  sizes_ok m o -> guess_ok true m s inputs cs ->
  exists es, pack m o s inputs cs true closed = Ok es /\ length es = n_variables true closed m (length s) cs.
Proof. intros m o s inputs cs closed H1 H2. apply pack_ok; auto. discriminate. Qed.

(** packing and unpacking gives the controls back, and the inputs up to the time, which
    is not optimised *)
Theorem C28_round_trip : forall m o s inputs cs closed es q0 u0 du0,
  sizes_ok m o -> guess_ok true m s inputs cs ->
  (closed = false -> start_of true m s inputs cs q0 u0 du0) ->
  pack m o s inputs cs true closed = Ok es ->
  exists inputs',
    unpack m (map fst es) true closed q0 u0 du0 (length s) cs
      = Ok (n_variables true closed m (length s) cs, (inputs', cs)) /\
    length inputs' = length s /\ (forall r, In r inputs' -> length r = n_inputs m) /\
    forall i j, i < length s -> j < n_inputs m ->
      at2 inputs' i j = if (offset closed <=? i) && (j =? in_time m) then 0%Q else at2 inputs i j.
Proof. intros m o s inputs cs closed es q0 u0 du0 H1 H2. apply pack_unpack; auto. discriminate. Qed.

(** every vector of the right length is the packing of exactly what it unpacks to, with
    the bounds of the initial guess: no variable is lost or shared *)
Theorem C28_unpack_then_pack : forall m o s inputs cs closed x q0 u0 du0,
  sizes_ok m o -> guess_ok true m s inputs cs ->
  (closed = false -> start_of true m s inputs cs q0 u0 du0) ->
  length x = n_variables true closed m (length s) cs ->
  exists inputs' cs',
    unpack m x true closed q0 u0 du0 (length s) cs = Ok (n_variables true closed m (length s) cs, (inputs', cs')) /\
    guess_ok true m s inputs' cs' /\
    (forall j c c', nth_error cs j = Some c -> nth_error cs' j = Some c' ->
        c_kind c' = c_kind c /\ c_hypermesh c' = c_hypermesh c /\ c_dissipation c' = c_dissipation c) /\
    exists es es', pack m o s inputs cs true closed = Ok es /\ pack m o s inputs' cs' true closed = Ok es' /\
      map fst es' = x /\ map snd es' = map snd es.
Proof. intros m o s inputs cs closed x q0 u0 du0 H1 H2. apply unpack_pack; auto. discriminate. Qed.

(** the bounds of the vector are the bounds of the inputs and controls packed in it *)
Theorem C28_bounds : forall m o s inputs cs closed es,
  sizes_ok m o -> guess_ok true m s inputs cs -> pack m o s inputs cs true closed = Ok es ->
  within es (map fst es) <-> respects_bounds m o s true closed inputs cs.
Proof. intros m o s inputs cs closed es H1 H2. apply pack_bounds; auto. discriminate. Qed.

Example C28_concrete : exists es, pack ex_car ex_opts ex_s ex_in ex_cs true false = Ok es /\
  map fst es = [51; 2; 12; 52; 3; 13; 21; 22; 31]%Q /\
  map snd es = [(1, 99); (-(14), 6); (-2, 2); (1, 99); (-(24), 6); (-2, 2); (-4, 4); (-4, 4); (-5, 5)]%Q.
Proof. eexists. split; [vm_compute; reflexivity|]. split; vm_compute; reflexivity. Qed.

(** *** C29: the formulation with control derivatives *)
Theorem C29_pack_size_partial : forall m o s inputs cs closed,
  sizes_ok m o -> guess_ok false m s inputs cs -> no_constant cs -> rates_bounded m cs ->
  exists es, pack m o s inputs cs false closed = Ok es /\ length es = n_variables false closed m (length s) cs.
Proof. intros m o s inputs cs closed H1 H2 H3 H4. apply pack_ok; auto. Qed.

Theorem C29_round_trip_partial : forall m o s inputs cs closed es q0 u0 du0,
  sizes_ok m o -> guess_ok false m s inputs cs -> no_constant cs -> rates_bounded m cs ->
  (closed = false -> start_of false m s inputs cs q0 u0 du0) ->
  pack m o s inputs cs false closed = Ok es ->
  exists inputs',
    unpack m (map fst es) false closed q0 u0 du0 (length s) cs
      = Ok (n_variables false closed m (length s) cs, (inputs', cs)) /\
    length inputs' = length s /\ (forall r, In r inputs' -> length r = n_inputs m) /\
    forall i j, i < length s -> j < n_inputs m ->
      at2 inputs' i j = if (offset closed <=? i) && (j =? in_time m) then 0%Q else at2 inputs i j.
Proof. intros m o s inputs cs closed es q0 u0 du0 H1 H2 H3 H4. apply pack_unpack; auto. Qed.

Theorem C29_unpack_then_pack_partial : forall m o s inputs cs closed x q0 u0 du0,
  sizes_ok m o -> guess_ok false m s inputs cs -> no_constant cs -> rates_bounded m cs ->
  (closed = false -> start_of false m s inputs cs q0 u0 du0) ->
  length x = n_variables false closed m (length s) cs ->
  exists inputs' cs',
    unpack m x false closed q0 u0 du0 (length s) cs = Ok (n_variables false closed m (length s) cs, (inputs', cs')) /\
    guess_ok false m s inputs' cs' /\
    (forall j c c', nth_error cs j = Some c -> nth_error cs' j = Some c' ->
        c_kind c' = c_kind c /\ c_hypermesh c' = c_hypermesh c /\ c_dissipation c' = c_dissipation c) /\
    exists es es', pack m o s inputs cs false closed = Ok es /\ pack m o s inputs' cs' false closed = Ok es' /\
      map fst es' = x /\ map snd es' = map snd es.
Proof. intros m o s inputs cs closed x q0 u0 du0 H1 H2 H3 H4. apply unpack_pack; auto. Qed.

Theorem C29_bounds_partial : forall m o s inputs cs closed es,
  sizes_ok m o -> guess_ok false m s inputs cs -> no_constant cs -> rates_bounded m cs ->
  pack m o s inputs cs false closed = Ok es ->
  within es (map fst es) <-> respects_bounds m o s false closed inputs cs.
Proof. intros m o s inputs cs closed es H1 H2 H3 H4. apply pack_bounds; auto. Qed.

(** with a control optimised as one constant the vectors are always overrun: its value is
    stored twice *)
Theorem C29_constant_control_refuted : forall m o s inputs cs closed,
  sizes_ok m o -> guess_ok false m s inputs cs -> rates_bounded m cs -> ~ no_constant cs ->
  pack m o s inputs cs false closed = UB.
Proof. exact pack_constant. Qed.

(** the f1 has four controls but bounds for three derivatives: a fourth full-mesh control
    reads past them *)
Theorem C29_rate_bounds_refuted : exists m o s inputs cs, sizes_ok m o /\ guess_ok false m s inputs cs /\
  no_constant cs /\ n_controls m = 4 /\ length (rate_lb m) = 3 /\ length (rate_ub m) = 3 /\
  pack m o s inputs cs false true = UB.
Proof.
  exists {| n_inputs := 3; n_controls := 4; in_time := 1; st_time := 1; n_extra := 1; integral_names := [];
    eval_states := eval_states ex_car; eval_dstates := eval_dstates ex_car; eval_extra := eval_extra ex_car;
    eval_integral := eval_integral ex_car; differential_ids := [0; 2]; algebraic_ids := [];
    extra_lb := extra_lb ex_car; extra_ub := extra_ub ex_car; track_length := 30%Q;
    left_limit := left_limit ex_car; right_limit := right_limit ex_car; controls_def := [0; 7; 0; 0]%Q;
    rate_lb := [-1; -1; -1]%Q; rate_ub := [1; 1; 1]%Q |}, ex_opts, ex_s, ex_in, ex_cs'.
  split; [exact ex_sizes|]. split; [exact ex_guess'|]. split; [exact ex_no_constant|].
  split; [reflexivity|]. split; [reflexivity|]. split; [reflexivity|]. vm_compute. reflexivity.
Qed.

Example C29_concrete : exists es, pack ex_car ex_opts ex_s ex_in ex_cs' false false = Ok es /\
  map fst es = [51; 2; 12; 5; 2; 8; 52; 3; 13; 6; 3; 9; 21; 22]%Q.
Proof. eexists. split; [vm_compute; reflexivity|]. vm_compute. reflexivity. Qed.

Print Assumptions C26_hypermesh_lookup_partial.
Print Assumptions C26_value_in_force_unique.
Print Assumptions C26_found_from_first_point_on_partial.
Print Assumptions C26_lookup_in_bounds_partial.
Print Assumptions C26_empty_hypermesh_refuted.
Print Assumptions C27_checked_reads_in_bounds_partial.
Print Assumptions C27_checked_values_found_partial.
Print Assumptions C27_value_of_each_kind.
Print Assumptions C27_checked_rates_found_partial.
Print Assumptions C27_counts.
Print Assumptions C27_check_idempotent.
Print Assumptions C27_value_and_rate_lookup_refuted.
Print Assumptions C27_empty_hypermesh_refuted.
Print Assumptions C28_pack_size.
Print Assumptions C28_round_trip.
Print Assumptions C28_unpack_then_pack.
Print Assumptions C28_bounds.
Print Assumptions C29_pack_size_partial.
Print Assumptions C29_round_trip_partial.
Print Assumptions C29_unpack_then_pack_partial.
Print Assumptions C29_bounds_partial.
Print Assumptions C29_constant_control_refuted.
Print Assumptions C29_rate_bounds_refuted.
