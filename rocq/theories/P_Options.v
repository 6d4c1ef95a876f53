(** C62: options of optimal_laptime. C91: initial condition of open simulations. C92: saved vectors. C93: saved
    derivatives. C94: options of circuit_preprocessor. *)
From Coq Require Import String QArith ZArith Bool Arith Lia List.
From Verif Require Import M_Controls M_Laptime M_Options S_Options L_Options L_Controls.
Import ListNotations.
Local Open Scope string_scope.
Local Open Scope nat_scope.

(** ** C62 *)

(** Every option with a single value, except the speed of the steady state, is read from the node of that name. *)
Theorem C62_single_values_partial rds v table doc c : read_options rds v table doc = Ok c ->
  option_is doc ["options"; "warm_start"] (r_bool rds) false (o_warm c) /\
  option_is doc ["options"; "save_warm_start"] (r_bool rds) false (o_save_warm c) /\
  option_is doc ["options"; "write_xml"] (r_bool rds) false (o_write_xml c) /\
  (o_write_xml c = true -> exists e, element doc ["options"; "xml_file_name"] = Some e /\ o_xml_name c = x_value e) /\
  option_is doc ["options"; "print_level"] (r_int rds) 0%Z (o_print c) /\
  option_is doc ["options"; "closed_simulation"] (r_bool rds) true (o_closed c) /\
  option_is doc ["options"; "sigma"] (r_num rds) (1#2)%Q (o_sigma c) /\
  option_is doc ["options"; "compute_sensitivity"] (r_bool rds) false (o_sensitivity c).
Proof.
  intro H. apply read_options_inv in H as (H1 & H2 & H3 & H4 & H5 & H6 & H7 & H8 & H9 & H10 & H11 & H12 & H13 & H14 & H15).
  split; [now apply read_option_is|]. split; [now apply read_option_is|]. split; [now apply read_option_is|]. split; [exact H4|].
  split; [now apply read_option_is|]. split; [now apply read_option_is|]. split; now apply read_option_is.
Qed.

(** The prefix and the list of variables to save. *)
Theorem C62_output_variables rds v table doc c : read_options rds v table doc = Ok c ->
  match element doc ["options"; "output_variables"] with
  | None => o_prefix c = "run/" /\ o_save c = []
  | Some _ =>
      (exists p, element doc ["options"; "output_variables"; "prefix"] = Some p /\ o_prefix c = r_trim rds (x_value p)) /\
      match element doc ["options"; "output_variables"; "variables"] with
      | Some e => o_save c = map x_name (x_children e)
      | None => forall n, In n (o_save c) <->
          n = v_key v \/ In n (v_inputs v) \/ In n (v_controls v) \/ In n (v_outputs v) \/ n = "laptime" \/
          exists k, In k (v_integrals v) /\ n = "integral_quantities." ++ k
      end
  end.
Proof.
  intro H. apply read_options_inv in H as (_ & _ & _ & _ & _ & H & _). unfold read_outputs in H.
  destruct (element doc ["options"; "output_variables"]) as [e0|].
  - apply bind_ok in H as (p & Hp & H). apply need_ok in Hp.
    apply (f_equal (fun r => match r with Ok x => x | _ => ("", []) end)) in H. 
    assert (E1 := f_equal fst H). assert (E2 := f_equal snd H). cbn [fst snd] in E1, E2.
    split; [exists p; split; [exact Hp|now symmetry]|].
    destruct (element doc ["options"; "output_variables"; "variables"]) as [e|]; [now symmetry|].
    intro n. rewrite <- E2. unfold all_variables. rewrite in_app_iff. cbn [In]. rewrite in_app_iff, in_app_iff. cbn [In]. rewrite in_map_iff.
    assert (X : (exists x, "integral_quantities." ++ x = n /\ In x (v_integrals v)) <->
                (exists k, In k (v_integrals v) /\ n = "integral_quantities." ++ k)).
    { split; intros (k & A & B); exists k; split; auto. }
    rewrite X. intuition congruence.
  - now injection H as <- <-.
Qed.

(** The control variables: every node names a control and has one of the four types; every control gets the type, hypermesh and dissipation
    of its node, the defaults when it has none. *)
Theorem C62_control_variables_partial rds v table doc c : consistent v ->
  distinct (nodes doc ["options"; "control_variables"]) ->
  read_options rds v table doc = Ok c ->
  (forall e, In e (nodes doc ["options"; "control_variables"]) ->
     In (x_name e) (v_controls v) /\ exists t, attribute e "optimal_control_type" = Some t /\ valid_type t) /\
  forall i n, nth_error (v_controls v) i = Some n ->
    control_as_written rds v (nodes doc ["options"; "control_variables"]) (o_types c) (o_dissipations c) (o_hypermeshes c) i n.
Proof.
  intros Hc Hd H. apply read_options_inv in H as (_ & _ & _ & _ & _ & _ & _ & _ & _ & _ & _ & H & _).
  destruct (read_controls_spec rds v doc _ _ _ Hc Hd H) as (_ & _ & _ & A & B). now split.
Qed.

(** The integral constraints, in order. *)
Theorem C62_integral_constraints rds v table doc c : read_options rds v table doc = Ok c ->
  Forall2 (fun e x => exists l u, child e "lower_bound" = Some l /\ child e "upper_bound" = Some u /\
             fst (fst x) = x_name e /\ r_num rds (x_value l) = Some (snd (fst x)) /\ r_num rds (x_value u) = Some (snd x))
          (nodes doc ["options"; "integral_constraints"]) (o_integrals c).
Proof.
  intro H. apply read_options_inv in H as (_ & _ & _ & _ & _ & _ & _ & _ & _ & _ & _ & _ & H & _).
  exact (read_integrals_spec rds doc _ H).
Qed.

(** The bounds: every node names an input or a control, and each bound is the one written for that variable and that side. *)
Theorem C62_variable_bounds_partial rds v table doc c : consistent v ->
  distinct (nodes doc ["options"; "variable_bounds"]) ->
  read_options rds v table doc = Ok c ->
  let l := nodes doc ["options"; "variable_bounds"] in
  (forall e, In e l -> In (x_name e) (v_inputs v ++ v_controls v)%list) /\
  (forall i n, nth_error (v_inputs v) i = Some n ->
     bound_as_written rds l "lower" (v_inputs_lb v) (o_inputs_lb c) i n /\
     bound_as_written rds l "upper" (v_inputs_ub v) (o_inputs_ub c) i n) /\
  (forall i n, nth_error (v_controls v) i = Some n ->
     bound_as_written rds l "lower" (v_controls_lb v) (o_controls_lb c) i n /\
     bound_as_written rds l "upper" (v_controls_ub v) (o_controls_ub c) i n).
Proof.
  intros Hc Hd H. apply read_options_inv in H as (_ & _ & _ & _ & _ & _ & _ & _ & _ & _ & _ & _ & _ & H & _).
  pose proof (read_bounds_spec rds v doc _ Hc Hd H) as (_ & _ & _ & _ & K & I1 & I2 & I3 & I4). cbn zeta.
  split; [intros e He; now destruct (K e He)|]. split; intros i n Hn; split; auto.
Qed.

(** Readers for the examples. *)
Definition ex_readers : readers := Readers
  (fun s => if String.eqb s "true" then Some true else if String.eqb s "false" then Some false else None)
  (fun s => if String.eqb s "5" then Some 5%Z else None)
  (fun s => if String.eqb s "100" then Some 100%Q else if String.eqb s "20" then Some 20%Q else
            if String.eqb s "-3" then Some (-3)%Q else if String.eqb s "0.7" then Some (7#10)%Q else None)
  (fun s => if String.eqb s "0 100 250" then Some [0; 100; 250]%Q else None) (fun s => s).
Definition ex_f1 : vehicle_info :=
  f1_info ["gg"] (repeat (-1)%Q 14) (repeat 1%Q 14) (repeat (-2)%Q 4) (repeat 2%Q 4).
Definition leaf (n t : string) : xml := Elem n [] t [].
Definition node (n : string) (l : list xml) : xml := Elem n [] "" l.
Definition ex_table (s : string) : option (list Q) :=
  if String.eqb s "q14" then Some (map (fun i => inject_Z (Z.of_nat i)) (seq 0 14))
  else if String.eqb s "q3" then Some [1; 2; 3]%Q
  else if String.eqb s "u4" then Some [5; 6; 7; 8]%Q
  else if String.eqb s "q15" then Some (repeat 0%Q 15) else None.

(** The speed of the steady state is read from another node: a document with both uses the wrong one ... *)
Theorem C62_steady_state_speed_refuted : exists c,
  read_options ex_readers ex_f1 ex_table (node "options" [leaf "steady_state_speed" "100"; leaf "initial_speed" "20"]) = Ok c /\
  o_speed c = 20%Q.
Proof. eexists. split; [vm_compute; reflexivity|reflexivity]. Qed.
(** ... and a document with the documented one only is refused, whatever it says. *)
Theorem C62_steady_state_speed_rejected_refuted rds v table doc e : element doc ["options"; "steady_state_speed"] = Some e ->
  element doc ["options"; "initial_speed"] = None -> forall c, read_options rds v table doc <> Ok c.
Proof.
  intros He Hn c H. apply read_options_inv in H as (_ & _ & _ & _ & _ & _ & H & _).
  unfold read_if in H. rewrite He, Hn in H. discriminate.
Qed.
(** Without that node the speed is 50 km/h even when the other one is present. *)
Theorem C62_initial_speed_ignored_refuted rds v table doc c : element doc ["options"; "steady_state_speed"] = None ->
  read_options rds v table doc = Ok c -> o_speed c = 50%Q.
Proof.
  intros He H. apply read_options_inv in H as (_ & _ & _ & _ & _ & _ & H & _).
  unfold read_if in H. rewrite He in H. now injection H as <-.
Qed.

(** From the options to the problem, without warm start: mesh, kind of simulation, types of the controls. *)
Definition kind_named (t : string) (k : control_kind) : Prop :=
  (t = "dont optimize" -> k = DONT_OPTIMIZE) /\ (t = "constant" -> k = CONSTANT) /\
  (t = "hypermesh" -> k = HYPERMESH) /\ (t = "full-mesh" -> k = FULL_MESH).

Lemma guess_kind direct n t d h u : kind_named t (g_kind (guess_control direct n t d h u)).
Proof. unfold kind_named, guess_control. repeat split; intros ->; reflexivity. Qed.

Lemma build_controls c n u g j : nth_error (guess_controls c n u) j = Some g -> exists t d h x,
  nth_error (o_types c) j = Some t /\ nth_error (o_dissipations c) j = Some d /\ nth_error (o_hypermeshes c) j = Some h /\
  nth_error u j = Some x /\ g = guess_control (o_direct c) n t d h x.
Proof.
  unfold guess_controls. rewrite map4_nth.
  destruct (nth_error (o_types c) j) as [t|]; [|discriminate]. destruct (nth_error (o_dissipations c) j) as [d|]; [|discriminate].
  destruct (nth_error (o_hypermeshes c) j) as [h|]; [|discriminate]. destruct (nth_error u j) as [x|]; [|discriminate].
  intros [= <-]. now exists t, d, h, x.
Qed.

Theorem C62_problem_partial kart steady warm c mesh p : o_warm c = false ->
  build kart steady warm c mesh = Ok p ->
  b_mesh p = mesh /\ b_closed p = o_closed c /\ b_direct p = o_direct c /\ length (b_inputs p) = length mesh /\
  forall j g, nth_error (b_controls p) j = Some g -> exists t d h,
    nth_error (o_types c) j = Some t /\ nth_error (o_dissipations c) j = Some d /\ nth_error (o_hypermeshes c) j = Some h /\
    kind_named t (g_kind g) /\
    (t = "hypermesh" -> g_mesh g = h /\ length (g_values g) = length h) /\
    (t = "full-mesh" -> g_dissipation g = d /\ length (g_values g) = length mesh).
Proof.
  intros Hw. unfold build. destruct (steady (o_speed c)) as [q u0]. rewrite Hw.
  set (u := if kart then set_at u0 1 0%Q else u0).
  assert (G : forall j g, nth_error (guess_controls c (length mesh) u) j = Some g -> exists t d h,
    nth_error (o_types c) j = Some t /\ nth_error (o_dissipations c) j = Some d /\ nth_error (o_hypermeshes c) j = Some h /\
    kind_named t (g_kind g) /\
    (t = "hypermesh" -> g_mesh g = h /\ length (g_values g) = length h) /\
    (t = "full-mesh" -> g_dissipation g = d /\ length (g_values g) = length mesh)).
  { intros j g Hg. apply build_controls in Hg as (t & d & h & x & A1 & A2 & A3 & A4 & ->).
    exists t, d, h. split; [exact A1|]. split; [exact A2|]. split; [exact A3|]. split; [apply guess_kind|].
    split; intros ->; cbn; split; auto; apply repeat_length. }
  destruct (o_set_start c).
  - intro H. apply bind_ok in H as (q' & Hq & H). apply bind_ok in H as (gs & Hg & H). injection H as <-. cbn [b_mesh b_closed b_direct b_inputs b_controls].
    split; [reflexivity|]. split; [reflexivity|]. split; [reflexivity|]. split.
    { destruct mesh; cbn in Hq; [discriminate|]. injection Hq as <-. cbn. now rewrite repeat_length. }
    intros j g' Hg'. destruct (start_controls_spec _ _ _ Hg) as [_ P].
    destruct (P j g' Hg') as (g & w & B1 & _ & B3 & B4 & B5 & B6 & B7 & B8).
    destruct (G j g B1) as (t & d & h & A1 & A2 & A3 & A4 & A5 & A6). exists t, d, h.
    split; [exact A1|]. split; [exact A2|]. split; [exact A3|]. rewrite B3, B4, B6. split; [exact A4|].
    assert (L : length (g_values g') = length (g_values g)).
    { destruct (g_kind g) eqn:E; try (rewrite B7 by congruence; reflexivity).
      destruct (B8 eq_refl) as (x & r & -> & ->). reflexivity. }
    rewrite L. split; [exact A5|exact A6].
  - intros [= <-]. cbn [b_mesh b_closed b_direct b_inputs b_controls].
    split; [reflexivity|]. split; [reflexivity|]. split; [reflexivity|]. split; [apply repeat_length|]. exact G.
Qed.

(** With warm start the options of the simulation, the controls and the mesh of the call are not used: the problem is the saved one. *)
Theorem C62_warm_start_ignores_options_refuted kart steady warm c mesh : o_warm c = true ->
  build kart steady warm c mesh = Ok warm.
Proof. intro H. unfold build. destruct (steady (o_speed c)). now rewrite H. Qed.

(** *** Examples *)
Definition ex_controls : xml := node "options" [
  leaf "write_xml" "true"; leaf "xml_file_name" "run.xml"; leaf "print_level" "5"; leaf "sigma" "0.7";
  node "output_variables" [leaf "prefix" "run1/"];
  node "control_variables" [
    Elem "rear-axle.boost" [("optimal_control_type", "hypermesh")] "" [leaf "hypermesh" "0 100 250"];
    Elem "chassis.throttle" [("optimal_control_type", "full-mesh")] "" [leaf "dissipation" "20"];
    Elem "chassis.brake-bias" [("optimal_control_type", "constant")] "" []];
  node "integral_constraints" [node "engine-energy" [leaf "lower_bound" "-3"; leaf "upper_bound" "20"]];
  node "variable_bounds" [node "road.lateral-displacement" [leaf "lower" "-3"; leaf "upper" "20"]; node "chassis.throttle" [leaf "upper" "0.7"]]].
Example ex_consistent : consistent ex_f1.
Proof.
  unfold consistent. split; [reflexivity|]. split; [reflexivity|]. split; [reflexivity|]. split; [reflexivity|]. split; [reflexivity|]. split; [reflexivity|].
  cbn. repeat (constructor; [cbn; intro C; repeat (destruct C as [C|C]; [discriminate C|]); exact C|]). constructor.
Qed.
Example ex_distinct : distinct (nodes ex_controls ["options"; "control_variables"]) /\ distinct (nodes ex_controls ["options"; "variable_bounds"]).
Proof.
  split; cbn; repeat (constructor; [cbn; intro C; repeat (destruct C as [C|C]; [discriminate C|]); exact C|]); constructor.
Qed.
Example ex_read : exists c, read_options ex_readers ex_f1 ex_table ex_controls = Ok c /\
  o_types c = ["full-mesh"; "hypermesh"; "full-mesh"; "constant"] /\ o_dissipations c = [50; 16#1000; 20; 0]%Q /\
  nth 1 (o_hypermeshes c) [] = [0; 100; 250]%Q /\ nth 12 (o_inputs_lb c) 0%Q = (-3)%Q /\ nth 2 (o_controls_ub c) 0%Q = (7#10)%Q /\
  length (o_save c) = 27.
Proof. eexists. split; [vm_compute; reflexivity|]. repeat split; reflexivity. Qed.

(** ** C91 *)

(** An open simulation starts from the given vectors when they have the sizes of the problem: the first inputs are the given ones, the first value of every
    control on the full mesh is the given one, and everything else is the steady state. *)
Theorem C91_initial_condition_partial rds v table doc c kart steady warm mesh p vq vu eq eu tq tu :
  read_options rds v table doc = Ok c -> o_closed c = false -> o_warm c = false ->
  element doc ["options"; "initial_condition"; "q"] = Some eq -> attribute eq "from_table" = Some tq -> table tq = Some vq ->
  element doc ["options"; "initial_condition"; "u"] = Some eu -> attribute eu "from_table" = Some tu -> table tu = Some vu ->
  length vq = length (v_inputs v) -> length vu = length (v_controls v) ->
  build kart steady warm c mesh = Ok p ->
  nth_error (b_inputs p) 0 = Some (map Some vq) /\
  (forall i, 0 < i < length mesh -> nth_error (b_inputs p) i = Some (map Some (fst (steady (o_speed c))))) /\
  forall j g u, nth_error (b_controls p) j = Some g -> nth_error vu j = Some u -> g_kind g = FULL_MESH ->
    nth_error (g_values g) 0 = Some (Some u).
Proof.
  intros HR Hc Hw Q1 Q2 Q3 U1 U2 U3 Lq Lu HB.
  apply read_options_inv in HR as (_ & _ & _ & _ & _ & _ & _ & _ & HS & _). rewrite Hc in HS.
  apply read_start_open in HS as (eq' & eu' & tq' & tu' & vq' & vu' & A1 & A2 & A3 & A4 & A5 & A6 & A7 & A8 & A9).
  cbn [fst snd] in A7, A8, A9.
  assert (eq' = eq) by congruence. subst. assert (tq' = tq) by congruence. subst. assert (vq' = vq) by congruence. subst.
  assert (eu' = eu) by congruence. subst. assert (tu' = tu) by congruence. subst. assert (vu' = vu) by congruence. subst.
  apply copy_into_exact in A7; [|exact Lq]. apply copy_into_exact in A8; [|exact Lu].
  unfold build in HB. destruct (steady (o_speed c)) as [q u0]. rewrite Hw, A9 in HB. cbn [fst].
  apply bind_ok in HB as (q' & Hq & HB). apply bind_ok in HB as (gs & Hg & HB). injection HB as <-. cbn [b_inputs b_controls].
  rewrite A7 in Hq. rewrite A8 in Hg.
  destruct mesh as [|m0 mesh]; [discriminate|]. cbn in Hq. injection Hq as <-.
  split; [reflexivity|]. split.
  - intros [|i] Hi; [lia|]. cbn [nth_error]. cbn in Hi.
    rewrite (nth_error_nth' _ (map Some q)) by (rewrite repeat_length; lia). now rewrite nth_repeat.
  - intros j g u Hj Hu Hk. destruct (start_controls_spec _ _ _ Hg) as [_ P].
    destruct (P j g Hj) as (g0 & w & _ & B2 & B3 & _ & _ & _ & _ & B8). rewrite nth_error_map, Hu in B2. injection B2 as <-.
    destruct (B8 ltac:(congruence)) as (x & t & _ & ->). reflexivity.
Qed.

Definition ex_open (q : string) : xml := node "options" [
  leaf "closed_simulation" "false";
  node "initial_condition" [Elem "q" [("from_table", q)] "" []; Elem "u" [("from_table", "u4")] "" []]].
Definition ex_steady (v : Q) : list Q * list Q := (repeat v 14, [1; 2; 3; 4]%Q).
Definition no_warm : problem := Problem [] true true [] [].

(** A vector that is too short is accepted: the simulation starts from uninitialised memory. *)
Theorem C91_short_vector_refuted : exists c p,
  read_options ex_readers ex_f1 ex_table (ex_open "q3") = Ok c /\
  build false ex_steady no_warm c [0; 10; 20]%Q = Ok p /\
  exists q, nth_error (b_inputs p) 0 = Some q /\ nth_error q 3 = Some None.
Proof.
  eexists _, _. split; [vm_compute; reflexivity|]. split; [vm_compute; reflexivity|].
  eexists. split; [reflexivity|reflexivity].
Qed.
(** A vector that is too long is copied past the end of the array. *)
Theorem C91_long_vector_refuted : read_options ex_readers ex_f1 ex_table (ex_open "q15") = UB.
Proof. vm_compute. reflexivity. Qed.

(** An open simulation without an initial condition is refused. *)
Theorem C91_needed rds v table doc c : read_options rds v table doc = Ok c -> o_closed c = false ->
  exists e, element doc ["options"; "initial_condition"] = Some e.
Proof.
  intros HR Hc. apply read_options_inv in HR as (_ & _ & _ & _ & _ & _ & _ & _ & HS & _). rewrite Hc in HS.
  unfold read_start in HS. apply bind_ok in HS as (e & He & _). apply need_ok in He. now exists e.
Qed.

Example ex_open_ok : exists c p, read_options ex_readers ex_f1 ex_table (ex_open "q14") = Ok c /\ o_closed c = false /\ o_warm c = false /\
  build false ex_steady no_warm c [0; 10; 20]%Q = Ok p /\
  length (b_inputs p) = 3 /\ option_map g_values (nth_error (b_controls p) 2) = Some [Some 7; Some 3; Some 3]%Q.
Proof. eexists _, _. split; [vm_compute; reflexivity|]. split; [reflexivity|]. split; [reflexivity|]. split; [vm_compute; reflexivity|]. split; reflexivity. Qed.

(** ** C92 *)

(** Each saved vector has one entry per point of the caller's mesh, and entry [i] is the value of that variable at point
    [i] of the solution, when the solution was computed on that mesh. *)
Definition value_at (v : vehicle_info) (outputs : list Q -> list Q -> Q -> string -> option Q) (q u : list Q) (s : Q) (name : string) (x : Q) : Prop :=
  (name = v_key v /\ x = s) \/
  (exists j, nth_error (v_inputs v) j = Some name /\ nth_error q j = Some x) \/
  (exists j, nth_error (v_controls v) j = Some name /\ nth_error u j = Some x) \/
  (~ In name (v_inputs v) /\ ~ In name (v_controls v) /\ outputs q u s name = Some x).

Lemma saved_value_ok v outputs q u s name x : saved_value v outputs q u s name = Ok x -> value_at v outputs q u s name x.
Proof.
  unfold saved_value, value_at. destruct (String.eqb_spec name (v_key v)) as [->|N]; [intros [= <-]; now left|].
  destruct (index_of name (v_inputs v)) as [j|] eqn:E1.
  { intro H. right; left. exists j. apply index_of_some in E1. split; [exact E1|].
    unfold rd in H. destruct (nth_error q j); [now injection H as ->|discriminate]. }
  destruct (index_of name (v_controls v)) as [j|] eqn:E2.
  { intro H. right; right; left. exists j. apply index_of_some in E2. split; [exact E2|].
    unfold rd in H. destruct (nth_error u j); [now injection H as ->|discriminate]. }
  intro H. apply need_ok in H. right; right; right. apply index_of_none in E1, E2. auto.
Qed.

Theorem C92_saved_vectors_partial v outputs defaults w s name l : w_mesh w = s -> length (w_inputs w) = length (w_mesh w) ->
  saved_vector v outputs defaults w s name = Ok l ->
  length l = length (w_mesh w) /\
  forall i x, nth_error l i = Some x -> exists si q u,
    nth_error (w_mesh w) i = Some si /\ nth_error (w_inputs w) i = Some q /\
    control_array_at_s (w_controls w) defaults i si = Ok u /\ value_at v outputs q u si name x.
Proof.
  intros Hs HL H. unfold saved_vector in H. apply all_ok_inv in H as [L V]. rewrite map_length, seq_length in L.
  split; [congruence|]. intros i x Hx.
  assert (Hi : i < length s) by (rewrite <- L; apply nth_error_Some; congruence).
  apply V in Hx. rewrite nth_error_map in Hx. rewrite (nth_error_nth' _ 0) in Hx by (rewrite seq_length; lia).
  rewrite seq_nth in Hx by lia. cbn in Hx. injection Hx as Hx. unfold saved_point in Hx.
  apply bind_ok in Hx as (si & H1 & Hx). apply bind_ok in Hx as (u & H2 & Hx). apply bind_ok in Hx as (q & H3 & Hx).
  unfold rd in H1, H3. destruct (nth_error s i) eqn:E1; [injection H1 as ->|discriminate].
  destruct (nth_error (w_inputs w) i) eqn:E3; [injection H3 as ->|discriminate].
  exists si, q, u. rewrite Hs. split; [exact E1|]. split; [reflexivity|]. split; [exact H2|]. now apply saved_value_ok.
Qed.

(** The inputs and the key can always be saved. *)
Theorem C92_inputs_saved_partial v outputs defaults w s name j : w_mesh w = s -> length (w_inputs w) = length (w_mesh w) ->
  Forall (fun q => length q = length (v_inputs v)) (w_inputs w) ->
  (forall i si, nth_error s i = Some si -> exists u, control_array_at_s (w_controls w) defaults i si = Ok u) ->
  nth_error (v_inputs v) j = Some name -> exists l, saved_vector v outputs defaults w s name = Ok l.
Proof.
  intros Hs HL HF HC Hj. unfold saved_vector. apply all_ok_all. intros r Hr.
  apply in_map_iff in Hr as (i & <- & Hi). apply in_seq in Hi. unfold saved_point.
  destruct (nth_error s i) as [si|] eqn:E1; [|apply nth_error_None in E1; lia].
  unfold rd at 1. rewrite E1. cbn [bind]. destruct (HC i si E1) as [u ->]. cbn [bind].
  destruct (nth_error (w_inputs w) i) as [q|] eqn:E2; [|apply nth_error_None in E2; rewrite HL, Hs in E2; lia].
  unfold rd at 1. rewrite E2. cbn [bind]. unfold saved_value. destruct (String.eqb name (v_key v)); [eauto|].
  destruct (index_of name (v_inputs v)) as [k|] eqn:Ek.
  - apply index_of_lt in Ek. rewrite Forall_forall in HF. specialize (HF q (nth_error_In _ _ E2)).
    unfold rd. destruct (nth_error q k) eqn:E; [eauto|]. apply nth_error_None in E. lia.
  - exfalso. apply index_of_none in Ek. apply Ek. eapply nth_error_In. exact Hj.
Qed.

(** With warm start the solution is on the mesh of the saved run. If that has fewer points than the call, reading the solution
    goes out of its vectors. *)
Theorem C92_warm_start_reads_outside_refuted : forall v outputs defaults w s name,
  length (w_inputs w) < length s ->
  (forall i si, nth_error s i = Some si -> exists u, control_array_at_s (w_controls w) defaults i si = Ok u) ->
  (forall i, i < length (w_inputs w) -> exists x, saved_point v outputs defaults w s name i = Ok x) ->
  saved_vector v outputs defaults w s name = UB.
Proof.
  intros v outputs defaults w s name HL HC HP. unfold saved_vector. set (n := length (w_inputs w)) in *.
  replace (length s) with (n + S (length s - n - 1)) by lia. rewrite seq_app, map_app. cbn [seq map plus].
  assert (E : saved_point v outputs defaults w s name n = UB).
  { unfold saved_point. destruct (nth_error s n) as [si|] eqn:E1; [|apply nth_error_None in E1; lia].
    unfold rd at 1. rewrite E1. cbn [bind]. destruct (HC n si E1) as [u ->]. cbn [bind].
    unfold rd. replace (nth_error (w_inputs w) n) with (@None (list Q)); [reflexivity|].
    symmetry. apply nth_error_None. reflexivity. }
  rewrite E.
  assert (G : forall k l, (forall i, In i k -> exists x, saved_point v outputs defaults w s name i = Ok x) ->
     all_ok (map (saved_point v outputs defaults w s name) k ++ UB :: l)%list = UB).
  { induction k as [|i k IH]; intros l Hk; cbn; [reflexivity|]. destruct (Hk i (or_introl eq_refl)) as [x ->]. cbn.
    rewrite IH by (intros i' Hi'; apply Hk; now right). reflexivity. }
  apply G. intros i Hi. apply HP. apply in_seq in Hi. lia.
Qed.
(** If it has the same number of points somewhere else, the saved arclength is not the one of the saved states. *)
Theorem C92_warm_start_other_mesh_refuted : exists w s l,
  build false ex_steady (Problem (w_mesh w) true true [] []) (Config true false false "" 0 50 true true false false (1#2) "run/" [] [] [] [] [] [] [] [] [] [] []) s
    = Ok (Problem (w_mesh w) true true [] []) /\
  length (w_inputs w) = length (w_mesh w) /\
  saved_vector ex_f1 (fun _ _ _ _ => None) [] w s "road.arclength" = Ok l /\ l <> w_mesh w.
Proof.
  exists (Outcome [0; 10]%Q [repeat 1%Q 14; repeat 2%Q 14] [] []), [0; 20]%Q. eexists.
  split; [reflexivity|]. split; [reflexivity|]. split; [vm_compute; reflexivity|]. vm_compute. discriminate.
Qed.
Example ex_saved : saved_vector ex_f1 (fun _ _ _ n => if String.eqb n "gg" then Some 9%Q else None) [5; 5; 5; 5]%Q
  (Outcome [0; 10]%Q [repeat 1%Q 14; repeat 2%Q 14]
     [MkControl FULL_MESH [] [3; 4]%Q [] 0; MkControl DONT_OPTIMIZE [] [] [] 0; MkControl CONSTANT [] [7%Q] [] 0; MkControl DONT_OPTIMIZE [] [] [] 0] [])
  [0; 10]%Q "front-axle.steering-angle" = Ok [3; 4]%Q.
Proof. vm_compute. reflexivity. Qed.
Example ex_outside : length (w_inputs (Outcome [0%Q] [repeat 1%Q 14] [] [])) < length [0; 10]%Q /\
  saved_point ex_f1 (fun _ _ _ _ => None) [] (Outcome [0%Q] [repeat 1%Q 14] [] []) [0; 10]%Q "time" 0 = Ok 1%Q.
Proof. split; [cbn; lia|]. vm_compute. reflexivity. Qed.

(** ** C93 *)

(** The derivatives saved for the speed and for the time are the ones of the solution. *)
Theorem C93_saved_derivatives_partial iu it w n name p j l :
  (name = "chassis.velocity.x" /\ j = iu) \/ (name = "time" /\ j = it) ->
  saved_derivative iu it w n name p = Ok l ->
  length l = n /\ forall i x, nth_error l i = Some x -> exists a b,
    nth_error (w_sens w) p = Some a /\ nth_error a i = Some b /\ nth_error b j = Some x.
Proof.
  intros Hn H. unfold saved_derivative in H. apply all_ok_inv in H as [L V]. rewrite map_length, seq_length in L.
  split; [exact L|]. intros i x Hx.
  assert (Hi : i < n) by (rewrite <- L; apply nth_error_Some; congruence).
  apply V in Hx. rewrite nth_error_map in Hx. rewrite (nth_error_nth' _ 0) in Hx by (rewrite seq_length; lia).
  rewrite seq_nth in Hx by lia. cbn [plus option_map] in Hx. injection Hx as Hx.
  destruct Hn as [[-> ->]|[-> ->]]; cbn [String.eqb Ascii.eqb Bool.eqb] in Hx;
    apply bind_ok in Hx as (a & H1 & Hx); apply bind_ok in Hx as (b & H2 & Hx); unfold rd in *; exists a, b;
    destruct (nth_error (w_sens w) p); try discriminate; injection H1 as ->;
    destruct (nth_error a i); try discriminate; injection H2 as ->;
    match goal with H : match nth_error b ?k with _ => _ end = _ |- _ => destruct (nth_error b k); [injection H as ->|discriminate] end; auto.
Qed.

(** For every other variable the saved derivative is zero, whatever the solution. *)
Theorem C93_other_derivatives_refuted iu it w n name p : name <> "chassis.velocity.x" -> name <> "time" ->
  saved_derivative iu it w n name p = Ok (repeat 0%Q n).
Proof.
  intros H1 H2. unfold saved_derivative. apply String.eqb_neq in H1, H2. rewrite H1, H2.
  assert (G : forall k, all_ok (map (fun _ : nat => Ok 0%Q) (seq k n)) = Ok (repeat 0%Q n)); [|apply G].
  induction n as [|n IH]; intro k; [reflexivity|]. cbn [seq map all_ok bind repeat]. now rewrite IH.
Qed.
Example ex_other_derivative : exists w,
  nth_error (v_inputs ex_f1) 5 = Some "chassis.velocity.y" /\ option_map (fun a => nth 5 (nth 0 a []) 0%Q) (nth_error (w_sens w) 0) = Some 1%Q /\
  saved_derivative 4 11 w 1 "chassis.velocity.y" 0 = Ok [0%Q].
Proof. exists (Outcome [0%Q] [] [] [[repeat 1%Q 14]]). split; [reflexivity|]. split; [reflexivity|]. vm_compute. reflexivity. Qed.
Example ex_speed_derivative : saved_derivative 4 11 (Outcome [0%Q] [] [] [[repeat 3%Q 14]]) 1 "time" 0 = Ok [3%Q].
Proof. vm_compute. reflexivity. Qed.

(** ** C94 *)

Lemma read_weight_is rds doc n d x : read_weight rds doc n d = Ok x ->
  option_is doc ["options"; "optimization"; n] (r_num rds) d x.
Proof.
  unfold read_weight. destruct (element doc ["options"; "optimization"]) as [e|] eqn:E.
  - apply read_option_is.
  - intros [= <-]. unfold option_is. replace (element doc ["options"; "optimization"; n]) with (@None xml); [reflexivity|].
    symmetry. unfold element in *. destruct (String.eqb (x_name doc) "options"); [|reflexivity].
    cbn [descend] in *. destruct (child doc "optimization") as [o|]; [discriminate|reflexivity].
Qed.

(** The options of circuit_preprocessor: the mandatory nodes are there, each option is read from the node of that name. *)
Theorem C94_circuit_options rds ek en ed ec ym dy doc k : read_circuit rds ek en ed ec ym dy doc = Ok k ->
  (exists l r m, element doc ["options"; "kml_files"; "left"] = Some l /\ k_left k = x_value l /\
     element doc ["options"; "kml_files"; "right"] = Some r /\ k_right k = x_value r /\
     element doc ["options"; "mode"] = Some m /\
     (k_mode k = EQUALLY_SPACED <-> x_value m = "equally-spaced") /\ (k_mode k = REFINED <-> x_value m = "refined")) /\
  (exists c, element doc ["options"; "is_closed"] = Some c /\ r_bool rds (x_value c) = Some (k_closed k)) /\
  (k_mode k = EQUALLY_SPACED -> exists e, element doc ["options"; "number_of_elements"] = Some e /\ r_int rds (x_value e) = Some (k_elements k)) /\
  (k_mode k = REFINED -> k_closed k = true /\ exists s ds,
     element doc ["options"; "mesh_refinement"; "s"] = Some s /\ r_vec rds (x_value s) = Some (k_s k) /\
     element doc ["options"; "mesh_refinement"; "ds"] = Some ds /\ r_vec rds (x_value ds) = Some (k_ds k)) /\
  option_is doc ["options"; "optimization"; "cost_curvature"] (r_num rds) ek (k_eps_k k) /\
  option_is doc ["options"; "optimization"; "cost_track_limits_smoothness"] (r_num rds) en (k_eps_n k) /\
  option_is doc ["options"; "optimization"; "cost_track_limits_errors"] (r_num rds) ed (k_eps_d k) /\
  option_is doc ["options"; "optimization"; "cost_centerline"] (r_num rds) ec (k_eps_c k) /\
  option_is doc ["options"; "optimization"; "maximum_yaw_dot"] (r_num rds) ym (k_yaw k) /\
  option_is doc ["options"; "optimization"; "maximum_dyaw_dot"] (r_num rds) dy (k_dyaw k) /\
  k_xml k = option_map x_value (element doc ["options"; "xml_file_name"]) /\
  k_insert k = option_map x_value (element doc ["options"; "insert_table_name"]) /\
  (element doc ["options"; "output_variables"] <> None ->
     exists e, element doc ["options"; "output_variables"; "prefix"] = Some e /\ k_prefix k = Some (x_value e)).
Proof.
  unfold read_circuit. intro H.
  apply bind_ok in H as (e0 & _ & H). apply bind_ok in H as (l & Hl & H). apply bind_ok in H as (r & Hr & H).
  apply bind_ok in H as (m & Hm & H). apply bind_ok in H as (mode & Hmode & H). apply bind_ok in H as (cc & Hcc & H).
  apply bind_ok in H as (closed & Hclosed & H). apply bind_ok in H as (u & Hu & H). apply bind_ok in H as ([[n s] ds] & Hn & H).
  apply bind_ok in H as (xk & Hk & H). apply bind_ok in H as (xn & Hxn & H). apply bind_ok in H as (xd & Hd & H).
  apply bind_ok in H as (xc & Hc & H). apply bind_ok in H as (xy & Hy & H). apply bind_ok in H as (xdy & Hdy & H).
  apply bind_ok in H as (pr & Hpr & H). apply bind_ok in H as (xx & Hxx & H). apply bind_ok in H as (pre & Hpre & H).
  apply bind_ok in H as (ins & Hins & H). injection H as <-.
  cbn [k_left k_right k_mode k_closed k_elements k_s k_ds k_eps_k k_eps_n k_eps_d k_eps_c k_yaw k_dyaw k_xml k_insert k_prefix].
  apply need_ok in Hl, Hr, Hm, Hcc, Hclosed.
  split.
  { exists l, r, m. split; [exact Hl|]. split; [reflexivity|]. split; [exact Hr|]. split; [reflexivity|]. split; [exact Hm|].
    destruct (String.eqb_spec (x_value m) "equally-spaced") as [E|N]; [injection Hmode as <-; rewrite E; split; split; try discriminate; auto|].
    destruct (String.eqb_spec (x_value m) "refined") as [E|N2]; [injection Hmode as <-; rewrite E; split; split; try discriminate; auto|discriminate]. }
  split; [now exists cc|]. split.
  { intros ->. apply bind_ok in Hn as (e & He & Hn). apply bind_ok in Hn as (z & Hz & Hn). injection Hn as <- <- <-.
    apply need_ok in He, Hz. now exists e. }
  split.
  { intros ->. split; [destruct closed; [reflexivity|discriminate]|].
    apply bind_ok in Hn as (e & He & Hn). apply bind_ok in Hn as (es & Hes & Hn). apply bind_ok in Hn as (eds & Heds & Hn).
    apply bind_ok in Hn as (vs & Hvs & Hn). apply bind_ok in Hn as (vds & Hvds & Hn). injection Hn as <- <- <-.
    apply need_ok in Hes, Heds, Hvs, Hvds. now exists es, eds. }
  split; [now apply read_weight_is|]. split; [now apply read_weight_is|]. split; [now apply read_weight_is|]. split; [now apply read_weight_is|].
  split; [now apply read_weight_is|]. split; [now apply read_weight_is|].
  split; [now injection Hxx as <-|]. split; [now injection Hins as <-|].
  intro Hp. destruct (element doc ["options"; "output_variables"]) as [o|]; [|congruence].
  apply bind_ok in Hpre as (e & He & Hpre). apply need_ok in He. injection Hpre as <-. now exists e.
Qed.

Definition ex_circuit (closed : string) : xml := node "options" [
  node "kml_files" [leaf "left" "l.kml"; leaf "right" "r.kml"]; leaf "mode" "equally-spaced"; leaf "is_closed" closed;
  leaf "number_of_elements" "5"; node "optimization" [leaf "cost_centerline" "20"]; leaf "insert_table_name" "track"].
(** The options of an open circuit are accepted, but there is no way to process it. *)
Theorem C94_open_circuit_refuted : exists k,
  read_circuit ex_readers 1 2 3 4 5 6 (ex_circuit "false") = Ok k /\ circuit_constructor k = None.
Proof. eexists. split; [vm_compute; reflexivity|reflexivity]. Qed.
(** Every closed one can be processed. *)
Theorem C94_closed_processed_partial rds ek en ed ec ym dy doc k : read_circuit rds ek en ed ec ym dy doc = Ok k -> k_closed k = true ->
  circuit_constructor k = Some (k_mode k).
Proof. intros _ H. unfold circuit_constructor. rewrite H. now destruct (k_mode k). Qed.
Example ex_circuit_read : exists k, read_circuit ex_readers 1 2 3 4 5 6 (ex_circuit "true") = Ok k /\
  k_eps_c k = 20%Q /\ k_eps_k k = 1%Q /\ k_insert k = Some "track" /\ k_closed k = true.
Proof. eexists. split; [vm_compute; reflexivity|]. repeat split; reflexivity. Qed.

Print Assumptions C62_single_values_partial.
Print Assumptions C62_output_variables.
Print Assumptions C62_control_variables_partial.
Print Assumptions C62_integral_constraints.
Print Assumptions C62_variable_bounds_partial.
Print Assumptions C62_steady_state_speed_refuted.
Print Assumptions C62_steady_state_speed_rejected_refuted.
Print Assumptions C62_initial_speed_ignored_refuted.
Print Assumptions C62_problem_partial.
Print Assumptions C62_warm_start_ignores_options_refuted.
Print Assumptions C91_initial_condition_partial.
Print Assumptions C91_short_vector_refuted.
Print Assumptions C91_long_vector_refuted.
Print Assumptions C91_needed.
Print Assumptions C92_saved_vectors_partial.
Print Assumptions C92_inputs_saved_partial.
Print Assumptions C92_warm_start_reads_outside_refuted.
Print Assumptions C92_warm_start_other_mesh_refuted.
Print Assumptions C93_saved_derivatives_partial.
Print Assumptions C93_other_derivatives_refuted.
Print Assumptions C94_circuit_options.
Print Assumptions C94_open_circuit_refuted.
Print Assumptions C94_closed_processed_partial.
