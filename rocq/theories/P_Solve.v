(** C132: what the solver is asked, and what becomes of its answer. C133: histories of calls with warm starts. *)
From Coq Require Import QArith ZArith String Bool Arith Lia List.
From Verif Require Import M_Controls S_Controls L_Controls M_Laptime S_Laptime S_Colloc L_Pack L_Pack2 L_Pack3 L_Pack4.
From Verif Require Import L_Colloc L_Colloc2 L_Colloc3 P_Controls P_Laptime M_Export S_Export P_Export M_Solve S_Solve.
Import ListNotations.
Local Open Scope nat_scope.
Local Open Scope string_scope.

Lemma mesh_checked closed L s s' : check_mesh closed L s = Ok s' <-> mesh_admissible closed L s /\ s' = mesh_used closed s.
Proof. rewrite check_mesh_iff. unfold mesh_admissible, mesh_used. destruct closed; tauto. Qed.
Lemma mesh_used_length closed s : 2 <= length s -> length (mesh_used closed s) = length s.
Proof. destruct closed; [|reflexivity]. destruct s; cbn; lia. Qed.

Section Solve.
Context (show_int : Z -> string) (show_num : Q -> string).
Notation requested := (requested show_int show_num).
Notation construct := (construct show_int show_num).
Notation prepare := (prepare show_int show_num).
Notation compute := (compute show_int show_num).
Notation option_text := (option_text show_int show_num).

(** ** C132 *)

(** The text of options sets what the user set, and nothing else. *)
Theorem C132_options : forall o, let t := option_text o in
  says t "Integer" "print_level" (show_int (so_print_level o)) /\
  says t "Integer" "max_iter" (show_int (so_max_iter o)) /\
  says t "Numeric" "tol" (show_num (so_tol o)) /\
  says t "Numeric" "constr_viol_tol" (show_num (so_viol_tol o)) /\
  says t "Numeric" "acceptable_tol" (show_num (so_acceptable_tol o)) /\
  (In ["Retape"; "true"] t <-> so_retape o = true) /\
  (forall line, In line t -> In (nth 1 line "") ["print_level"; "max_iter"; "tol"; "constr_viol_tol"; "acceptable_tol"] \/
     line = ["Retape"; "true"] \/ line = ["String"; "sb"; "yes"] \/ line = ["Sparse"; "true"; "forward"]).
Proof.
  intros o t. subst t. unfold option_text, says. destruct (so_retape o); cbn [app In].
  all: do 5 (split; [split; [tauto|intros line H K; repeat (destruct H as [<-|H]; [cbn in K; try discriminate K; reflexivity|]); destruct H]|]).
  all: split; [split; [intros H; try reflexivity; repeat (destruct H as [H|H]; [discriminate H|]); destruct H|intros H; try discriminate H; tauto]|].
  all: intros line H; repeat (destruct H as [<-|H]; [cbn; tauto|]); destruct H.
Qed.

Lemma compute_eq ready m o so s ins cs ib w d c :
  compute ready m o so s ins cs ib w d c = if negb ready then Throw else prepare m o so s ins cs ib w d c.
Proof. unfold compute. destruct ready, d, c; reflexivity. Qed.

(** Everything the request was built from. *)
Lemma requested_inv ready m o so p w rq : requested ready m o so p w = Ok rq -> exists cs s ib u q0 es bs,
  ready = true /\ check_controls (sp_controls p) = Ok cs /\ check_mesh (sp_closed p) (track_length m) (sp_mesh p) = Ok s /\
  check_sizes (sp_direct p) (length s) (sp_inputs p) cs = Ok tt /\ set_integrals (integral_names m) (o_integral o) = Ok ib /\
  (if sp_direct p then bind (control_array_at_s cs (controls_def m) 0 (nth 0 s 0%Q)) (fun u => Ok (u, []))
   else control_array_and_derivative_at_s cs (controls_def m) 0 (nth 0 s 0%Q)) = Ok u /\
  nth_error (sp_inputs p) 0 = Some q0 /\
  pack m o s (sp_inputs p) cs (sp_direct p) (sp_closed p) = Ok es /\
  constraint_bounds m s cs ib (sp_direct p) (sp_closed p) = Ok bs /\
  (forall zl zu la, w = Some (zl, zu, la) ->
     length zl = n_variables (sp_direct p) (sp_closed p) m (length s) cs /\
     length zu = n_variables (sp_direct p) (sp_closed p) m (length s) cs /\
     length la = n_constraints (sp_direct p) (sp_closed p) m (length s) cs ib) /\
  rq = Request (option_text so) (sp_direct p) (sp_closed p) s q0 (fst u) (snd u) cs ib (o_sigma o)
        (map fst es) (map snd es) bs (match w with None => None | Some (zl, zu, la) => Some (la, zl, zu) end).
Proof.
  unfold M_Solve.requested. intros H. apply bind_ok in H as (cs & Hc & H). apply bind_ok in H as (s & Hs & H).
  apply bind_ok in H as ([] & Hz & H). apply bind_ok in H as (ib & Hi & H). rewrite compute_eq in H.
  destruct ready; [|discriminate]. cbn [negb] in H. unfold M_Solve.prepare in H.
  apply bind_ok in H as (s0 & H0 & H). apply bind_ok in H as (u & Hu & H). apply bind_ok in H as (q0 & Hq & H).
  apply bind_ok in H as (es & He & H). apply bind_ok in H as (bs & Hb & H). apply bind_ok in H as ([] & Hw & H).
  injection H as <-. apply rd_inv in H0, Hq. rewrite <- (nth_error_nth _ _ 0%Q H0) in Hu.
  exists cs, s, ib, u, q0, es, bs. repeat split; auto.
  1-3: subst w; apply warm_start_iff in Hw; tauto.
Qed.
Lemma requested_intro m o so p w cs s ib u q0 es bs :
  check_controls (sp_controls p) = Ok cs -> check_mesh (sp_closed p) (track_length m) (sp_mesh p) = Ok s ->
  check_sizes (sp_direct p) (length s) (sp_inputs p) cs = Ok tt -> set_integrals (integral_names m) (o_integral o) = Ok ib ->
  (if sp_direct p then bind (control_array_at_s cs (controls_def m) 0 (nth 0 s 0%Q)) (fun u => Ok (u, []))
   else control_array_and_derivative_at_s cs (controls_def m) 0 (nth 0 s 0%Q)) = Ok u ->
  nth_error (sp_inputs p) 0 = Some q0 -> 0 < length s ->
  pack m o s (sp_inputs p) cs (sp_direct p) (sp_closed p) = Ok es ->
  constraint_bounds m s cs ib (sp_direct p) (sp_closed p) = Ok bs ->
  requested true m o so p w =
    bind (match w with
          | None => Ok tt
          | Some (zl, zu, la) => check_warm_start (n_variables (sp_direct p) (sp_closed p) m (length s) cs)
                                                  (n_constraints (sp_direct p) (sp_closed p) m (length s) cs ib) zl zu la
          end) (fun _ =>
    Ok (Request (option_text so) (sp_direct p) (sp_closed p) s q0 (fst u) (snd u) cs ib (o_sigma o)
        (map fst es) (map snd es) bs (match w with None => None | Some (zl, zu, la) => Some (la, zl, zu) end))).
Proof.
  intros Hc Hs Hz Hi Hu Hq Hn He Hb. unfold M_Solve.requested. rewrite Hc. cbn [bind]. rewrite Hs. cbn [bind].
  rewrite Hz. cbn [bind]. rewrite Hi. cbn [bind]. rewrite compute_eq. cbn [negb]. unfold M_Solve.prepare.
  rewrite (rd_nth s 0 0%Q Hn). cbn [bind]. rewrite Hu. cbn [bind]. unfold rd. rewrite Hq. cbn [bind]. rewrite He. cbn [bind].
  rewrite Hb. cbn [bind]. reflexivity.
Qed.

(** The pieces that C119 and C28 are about. *)
Lemma request_problem ready m o so p w rq : typed m o p -> requested ready m o so p w = Ok rq -> exists es,
  problem m o (rq_direct rq) (rq_closed rq) (rq_mesh rq) (sp_inputs p) (rq_controls rq) (rq_q0 rq) (rq_u0 rq) (rq_du0 rq) es /\
  map fst es = rq_start rq /\ map snd es = rq_bounds rq.
Proof.
  intros (Z & C & Lc & Lr) H. apply requested_inv in H as (cs & s & ib & u & q0 & es & bs & _ & Hc & Hs & Hz & Hi & Hu & Hq & He & Hb & _ & ->).
  cbn [rq_direct rq_closed rq_mesh rq_controls rq_q0 rq_u0 rq_du0 rq_start rq_bounds]. exists es. split; [|auto]. constructor; auto.
  - pose proof Hs as Hs'. apply mesh_checked in Hs' as (M & ->). split; [eauto|]. split; [exact Hz|].
    split; [rewrite mesh_used_length; apply M|]. split; [|exact Lr]. now rewrite (proj1 (check_controls_checked _ _ Hc)).
  - intros _. split; [symmetry; apply nth_error_nth; exact Hq|]. destruct (sp_direct p).
    + apply bind_ok in Hu as (u' & Hu & E). injection E as <-. exact Hu.
    + rewrite Hu. now destruct u.
Qed.

(** The derivative formulation: a problem that could be built has no constant control and bounds for the rates. *)
Lemma problem_rates' m o d c s ins cs (es : list entry) (x : unit) : d = false -> sizes_ok m o -> guess_ok d m s ins cs ->
  pack m o s ins cs d c = Ok es -> no_constant cs /\ rates_bounded m cs.
Proof. intros -> Z G H. eapply problem_derivative; eauto. Qed.
Lemma problem_rates m o d c s ins cs q0 u0 du0 es : problem m o d c s ins cs q0 u0 du0 es ->
  d = false -> no_constant cs /\ rates_bounded m cs.
Proof. intros [Z G _ H] E. exact (problem_rates' _ _ _ _ _ _ _ _ tt E Z G H). Qed.
Lemma within_bounds_list (es : list entry) x :
  within es x <-> length x = length (map snd es) /\ forall k, k < length x -> between (nth k (map snd es) (0, 0)%Q) (nth k x 0%Q).
Proof.
  unfold within. rewrite map_length. split; intros [L H]; (split; [exact L|]); intros k Hk; specialize (H k Hk).
  - change (0, 0)%Q with (snd (0, (0, 0)))%Q. now rewrite map_nth.
  - change (0, 0)%Q with (snd (0, (0, 0)))%Q in H. now rewrite map_nth in H.
Qed.

Theorem C132_request : forall ready m o so p w rq,
  typed m o p -> NoDup (integral_names m) -> requested ready m o so p w = Ok rq ->
  ready = true /\
  rq_options rq = option_text so /\ rq_direct rq = sp_direct p /\ rq_closed rq = sp_closed p /\ rq_sigma rq = o_sigma o /\
  mesh_admissible (sp_closed p) (track_length m) (sp_mesh p) /\ rq_mesh rq = mesh_used (sp_closed p) (sp_mesh p) /\
  same_controls (sp_controls p) (rq_controls rq) /\
  (forall i x, nth_error (integral_names m) i = Some x ->
     nth_error (rq_integrals rq) i = Some (match last_mention x (o_integral o) with
                                           | Some b => MkBound true (fst b) (snd b)
                                           | None => MkBound false (- dbl_max) dbl_max
                                           end)) /\
  (exists es, problem m o (sp_direct p) (sp_closed p) (rq_mesh rq) (sp_inputs p) (rq_controls rq)
                (rq_q0 rq) (rq_u0 rq) (rq_du0 rq) es /\ map fst es = rq_start rq /\ map snd es = rq_bounds rq) /\
  (within_request rq (rq_start rq) <->
     respects_bounds m o (rq_mesh rq) (sp_direct p) (sp_closed p) (sp_inputs p) (rq_controls rq)) /\
  length (rq_start rq) = n_variables (sp_direct p) (sp_closed p) m (length (sp_mesh p)) (rq_controls rq) /\
  length (rq_cbounds rq) = n_constraints (sp_direct p) (sp_closed p) m (length (sp_mesh p)) (rq_controls rq) (rq_integrals rq) /\
  constraint_bounds m (rq_mesh rq) (rq_controls rq) (rq_integrals rq) (sp_direct p) (sp_closed p) = Ok (rq_cbounds rq) /\
  rq_multipliers rq = (match w with None => None | Some (zl, zu, la) => Some (la, zl, zu) end) /\
  (forall zl zu la, w = Some (zl, zu, la) -> length zl = length (rq_start rq) /\ length zu = length (rq_start rq) /\ length la = length (rq_cbounds rq)).
Proof.
  intros ready m o so p w rq T N H. destruct (request_problem _ _ _ _ _ _ _ T H) as (es & Pb & E1 & E2).
  destruct T as (Z & C & Lc & Lr).
  apply requested_inv in H as (cs & s & ib & u & q0 & es' & bs & -> & Hc & Hs & Hz & Hi & Hu & Hq & He & Hb & Hw & ->).
  cbn [rq_options rq_direct rq_closed rq_mesh rq_q0 rq_u0 rq_du0 rq_controls rq_integrals rq_sigma rq_start rq_bounds rq_cbounds rq_multipliers] in *.
  pose proof Hs as Hs'. apply mesh_checked in Hs' as (M & Es).
  assert (Ls : length s = length (sp_mesh p)) by (rewrite Es; apply mesh_used_length, M).
  destruct (check_controls_checked _ _ Hc) as [L1 L2].
  pose proof (guess_facts _ _ _ _ _ (p_guess _ _ _ _ _ _ _ _ _ _ _ Pb)) as F.
  assert (Lb : length bs = n_constraints (sp_direct p) (sp_closed p) m (length s) cs ib).
  { rewrite (bounds_total m s cs ib (sp_direct p) (sp_inputs p) F C (sp_closed p)) in Hb. injection Hb as <-. eapply bounds_length; eauto. }
  assert (Le : length es = n_variables (sp_direct p) (sp_closed p) m (length s) cs) by (eapply packed_length; eauto).
  assert (Ee : es' = es) by (pose proof (p_pack _ _ _ _ _ _ _ _ _ _ _ Pb); congruence). subst es'.
  split; [reflexivity|]. do 4 (split; [reflexivity|]). split; [exact M|]. split; [exact Es|]. split.
  { split; [exact L1|]. intros j c c' Ec Ec'. destruct (L2 j c' Ec') as (c0 & E0 & _ & K1 & K2 & K3 & K4).
    rewrite Ec in E0. injection E0 as <-. auto. }
  split.
  { pose proof (set_integrals_spec _ (o_integral o) N) as Sp. rewrite Hi in Sp. apply Sp. }
  split; [eauto|]. split.
  { rewrite <- (pack_bounds _ _ _ _ _ _ _ _ Z (p_guess _ _ _ _ _ _ _ _ _ _ _ Pb) (problem_rates _ _ _ _ _ _ _ _ _ _ _ Pb) He).
    symmetry. apply (within_bounds_list es). }
  assert (Lf : length (map fst es) = n_variables (sp_direct p) (sp_closed p) m (length s) cs) by (rewrite map_length; exact Le).
  rewrite Lf, Lb, Ls. split; [reflexivity|]. split; [reflexivity|]. split; [exact Hb|]. split; [reflexivity|].
  intros zl zu la E. destruct (Hw zl zu la E) as (W1 & W2 & W3). rewrite Ls in W1, W2, W3. auto.
Qed.

(** A car that is not ready is rejected before anything is solved. *)
Lemma all_ok_no_ub {A} (l : list (res A)) : (forall r, In r l -> r <> UB) -> all_ok l <> UB.
Proof.
  induction l as [|r l IH]; cbn [all_ok]; intros H E; [discriminate|].
  destruct r as [a| |]; cbn [bind] in E; [|discriminate|exact (H UB (or_introl eq_refl) eq_refl)].
  destruct (all_ok l) eqn:El; cbn [bind] in E; try discriminate. exact (IH (fun r Hr => H r (or_intror Hr)) eq_refl).
Qed.
Lemma sizes_no_ub direct n ins cs : check_sizes direct n ins cs <> UB.
Proof.
  unfold check_sizes. destruct (negb _); [discriminate|]. induction cs as [|c cs IH]; cbn [for_each]; [discriminate|].
  unfold check_size_control at 1. destruct (kind_eqb _ _); [|exact IH].
  destruct (negb _); [discriminate|]. destruct direct; destruct (negb _); try discriminate; exact IH.
Qed.
Theorem C132_not_ready : forall m o so p w, NoDup (integral_names m) -> requested false m o so p w = Throw.
Proof.
  intros m o so p w N. unfold M_Solve.requested.
  destruct (check_controls (sp_controls p)) as [cs| |] eqn:Ec; cbn [bind]; [|reflexivity|].
  2:{ exfalso. revert Ec. apply all_ok_no_ub. intros r Hr. apply in_map_iff in Hr as (c & <- & _). unfold check_control.
      destruct (c_kind c); repeat match goal with |- context [if ?b then _ else _] => destruct b end; discriminate. }
  destruct (check_mesh _ _ _) as [s| |] eqn:Es; cbn [bind]; [|reflexivity|].
  2:{ exfalso. revert Es. unfold check_mesh. repeat match goal with |- context [if ?b then _ else _] => destruct b end; discriminate. }
  destruct (check_sizes _ _ _ _) as [[]| |] eqn:Ez; cbn [bind]; [|reflexivity|].
  2:{ exfalso. exact (sizes_no_ub _ _ _ _ Ez). }
  pose proof (set_integrals_spec _ (o_integral o) N) as Sp. destruct (set_integrals _ _) as [ib| |]; cbn [bind]; [|reflexivity|destruct Sp].
  now rewrite compute_eq.
Qed.

(** What is accepted. *)
Theorem C132_accepted : forall m o so p w cs ib,
  typed m o p -> check_controls (sp_controls p) = Ok cs -> mesh_admissible (sp_closed p) (track_length m) (sp_mesh p) ->
  check_sizes (sp_direct p) (length (sp_mesh p)) (sp_inputs p) cs = Ok tt ->
  set_integrals (integral_names m) (o_integral o) = Ok ib ->
  (forall c, In c (sp_controls p) -> c_kind c = HYPERMESH -> c_hypermesh c <> [] /\ sorted (c_hypermesh c) /\
     (nth 0 (c_hypermesh c) 0 <= nth 0 (mesh_used (sp_closed p) (sp_mesh p)) 0)%Q) ->
  (sp_direct p = false -> no_constant cs /\ rates_bounded m cs) ->
  (forall zl zu la, w = Some (zl, zu, la) ->
     length zl = n_variables (sp_direct p) (sp_closed p) m (length (sp_mesh p)) cs /\
     length zu = n_variables (sp_direct p) (sp_closed p) m (length (sp_mesh p)) cs /\
     length la = n_constraints (sp_direct p) (sp_closed p) m (length (sp_mesh p)) cs ib) ->
  exists rq, requested true m o so p w = Ok rq.
Proof.
  intros m o so p w cs ib (Z & C & Lc & Lr) Hc M Hz Hi Hh Hd Hw.
  pose proof (mesh_used_length (sp_closed p) (sp_mesh p) (proj1 M)) as Ls. set (s := mesh_used (sp_closed p) (sp_mesh p)) in *.
  assert (Hs : check_mesh (sp_closed p) (track_length m) (sp_mesh p) = Ok s) by (apply mesh_checked; auto).
  destruct (check_controls_checked _ _ Hc) as [L1 L2]. rewrite <- Ls in Hz.
  assert (G : guess_ok (sp_direct p) m s (sp_inputs p) cs).
  { split; [eauto|]. split; [exact Hz|]. split; [rewrite Ls; apply M|]. split; [congruence|exact Lr]. }
  pose proof (guess_facts _ _ _ _ _ G) as F. destruct (check_sizes_inv _ _ _ _ Hz) as [Li Lf].
  assert (Hn : 0 < length s) by (destruct M; lia).
  destruct (pack_ok _ m o s (sp_inputs p) cs (sp_closed p) Z G Hd) as (es & He & _).
  pose proof (bounds_total m s cs ib (sp_direct p) (sp_inputs p) F C (sp_closed p)) as Hb.
  destruct (nth_error (sp_inputs p) 0) as [q0|] eqn:Hq; [|apply nth_error_None in Hq; lia].
  assert (Full : forall c, In c (sp_controls p) -> c_kind c = FULL_MESH -> length (c_values c) = length s /\ length (c_rates c) = if sp_direct p then 0 else length s).
  { intros c Hin K. apply In_nth_error in Hin as (j & Ej).
    destruct (nth_error_transport _ cs _ _ (eq_sym L1) Ej) as (c' & Ec'). destruct (L2 j c' Ec') as (c0 & E0 & _ & K1 & _ & K3 & K4).
    rewrite Ej in E0. injection E0 as <-. rewrite <- K3, <- K4. apply Lf; [eapply nth_error_In; eauto|congruence]. }
  destruct (control_array_found _ _ (controls_def m) (length s) 0 (nth 0 s 0%Q) Hc (fun c h k => proj1 (Full c h k)) Hh Hn) as (u & Hu).
  assert (exists uu, (if sp_direct p then bind (control_array_at_s cs (controls_def m) 0 (nth 0 s 0%Q)) (fun u => Ok (u, []))
   else control_array_and_derivative_at_s cs (controls_def m) 0 (nth 0 s 0%Q)) = Ok uu) as (uu & Huu).
  { destruct (sp_direct p) eqn:D; [rewrite Hu; eexists; reflexivity|]. unfold control_array_and_derivative_at_s. rewrite Hu. cbn [bind].
    destruct (rates_found _ _ (length s) 0 Hc (fun c h k => proj2 (Full c h k)) Hn) as (r & ->). eexists. reflexivity. }
  rewrite (requested_intro m o so p w cs s ib uu q0 es _ Hc Hs Hz Hi Huu Hq Hn He Hb).
  destruct w as [[[zl zu] la]|]; [|eexists; reflexivity]. rewrite <- Ls in Hw. rewrite (proj2 (warm_start_iff _ _ _ _ _) (Hw _ _ _ eq_refl)). eexists. reflexivity.
Qed.

(** The lap that is returned is the answer to the request: the flag, the number of iterations and the multipliers
    are those of the solver, a failure is thrown when asked for, and a point between the bounds of the request is a
    lap between the bounds of the user. *)
Theorem C132_answer {Par} : forall ready m o so (declared : list Par) analyse solver p w l,
  typed m o p -> (forall rq, length (aw_x (solver rq)) = length (rq_start rq)) ->
  construct ready m o so declared analyse solver p w = Ok l ->
  exists rq, requested ready m o so p w = Ok rq /\ let a := solver rq in
    lp_success l = aw_success a /\ lp_iterations l = aw_iterations a /\ (so_throw so = true -> aw_success a = true) /\
    lp_zl l = aw_zl a /\ lp_zu l = aw_zu a /\ lp_lambda l = aw_lambda a /\
    lp_mesh l = rq_mesh rq /\ lp_closed l = sp_closed p /\ lp_direct l = sp_direct p /\
    same_kinds (rq_controls rq) (lp_controls l) /\
    guess_ok (sp_direct p) m (rq_mesh rq) (lp_inputs l) (lp_controls l) /\
    (exists es, pack m o (rq_mesh rq) (lp_inputs l) (lp_controls l) (sp_direct p) (sp_closed p) = Ok es /\
                map fst es = aw_x a /\ map snd es = rq_bounds rq) /\
    (within_request rq (aw_x a) <-> respects_bounds m o (lp_mesh l) (sp_direct p) (sp_closed p) (lp_inputs l) (lp_controls l)).
Proof.
  intros ready m o so declared analyse solver p w l T Sz H. unfold M_Solve.construct in H.
  apply bind_ok in H as (rq & Hr & H). exists rq. split; [exact Hr|]. destruct (request_problem _ _ _ _ _ _ _ T Hr) as (es & Pb & E1 & E2).
  assert (D : rq_direct rq = sp_direct p /\ rq_closed rq = sp_closed p) by (apply requested_inv in Hr as (? & ? & ? & ? & ? & ? & ? & _ & _ & _ & _ & _ & _ & _ & _ & _ & _ & ->); auto).
  destruct D as [D1 D2]. unfold finish in H. apply bind_ok in H as (r & H & E). injection E as <-.
  cbn [lp_success lp_iterations lp_zl lp_zu lp_lambda lp_mesh lp_closed lp_direct lp_inputs lp_controls].
  assert (Lx : length (sv_x (Solved (aw_success (solver rq)) (aw_x (solver rq)))) = length es) by (cbn [sv_x]; rewrite Sz, <- E1; apply map_length).
  destruct (C119_solution _ _ _ _ _ _ _ _ _ _ _ _ _ _ _ _ _ _ Pb Lx H) as (K & G & es' & Pk & X1 & X2). cbn [sv_x] in X1.
  destruct (C119_failure_reported _ _ _ _ _ _ _ _ _ _ _ (so_throw so) (so_check so) declared analyse [] _ Pb Lx) as (_ & R).
  destruct (R r H) as (R1 & R2 & _). cbn [sv_success] in R1. rewrite <- D1, <- D2. rewrite E2 in X2.
  cbv zeta. split; [exact R1|]. split; [reflexivity|]. split; [rewrite <- R1; exact R2|]. do 6 (split; [reflexivity|]).
  split; [exact K|]. split; [exact G|]. split; [eauto|].
  rewrite <- (pack_bounds _ _ _ _ _ _ _ _ (p_sizes _ _ _ _ _ _ _ _ _ _ _ Pb) G (fun d => problem_rates' _ _ _ _ _ _ _ _ tt d (p_sizes _ _ _ _ _ _ _ _ _ _ _ Pb) G Pk) Pk).
  unfold within_request. rewrite <- X1, <- X2. symmetry. apply (within_bounds_list es').
Qed.

Theorem C132_failure_thrown {Par} : forall ready m o so (declared : list Par) analyse solver p w rq,
  requested ready m o so p w = Ok rq -> so_throw so = true -> aw_success (solver rq) = false ->
  construct ready m o so declared analyse solver p w = Throw.
Proof.
  intros ready m o so declared analyse solver p w rq H E F. unfold M_Solve.construct. rewrite H. cbn [bind]. unfold finish, after_solve.
  cbn [sv_success]. now rewrite E, F.
Qed.

Theorem C132_completes {Par} : forall ready m o so (declared : list Par) analyse solver p w rq,
  typed m o p -> requested ready m o so p w = Ok rq -> so_check so = false ->
  length (aw_x (solver rq)) = length (rq_start rq) -> (aw_success (solver rq) = true \/ so_throw so = false) ->
  exists l, construct ready m o so declared analyse solver p w = Ok l.
Proof.
  intros ready m o so declared analyse solver p w rq T H E Sz F. unfold M_Solve.construct. rewrite H. cbn [bind]. unfold finish.
  destruct (request_problem _ _ _ _ _ _ _ T H) as (es & Pb & E1 & E2).
  assert (Lx : length (aw_x (solver rq)) = length es) by (rewrite Sz, <- E1; apply map_length).
  destruct (C119_completes _ _ _ _ _ _ _ _ _ _ _ true declared analyse [] (Solved true (aw_x (solver rq))) Pb Lx eq_refl) as (r & Hr).
  unfold after_solve in *. cbn [sv_success sv_x negb andb bind] in *. rewrite E.
  assert (N : negb (aw_success (solver rq)) && so_throw so = false) by (destruct F as [->| ->]; [reflexivity|apply andb_false_r]).
  rewrite N. apply bind_ok in Hr as (sol & Hs & Hr). cbn [bind]. rewrite Hs. cbn [bind]. eexists. reflexivity.
Qed.
End Solve.

(** ** C133 *)
Section History.
Context (show_int : Z -> string) (show_num : Q -> string) {P : Type}.
Notation requested := (requested show_int show_num).
Notation call_request := (call_request show_int show_num).
Notation optimal_laptime := (optimal_laptime show_int show_num).
Notation run_calls := (run_calls show_int show_num).
Implicit Types c : call P.

(** The history of a run: the calls with what they returned. *)
Definition history (k : cache) (cs : list (call P)) : list (call P * res lap) := combine cs (snd (run_calls k cs)).
Definition cache_after (k : cache) (cs : list (call P)) : cache := fst (run_calls k cs).

Lemma kept_keep kart l k : kept kart (keep kart l k) = l.
Proof. now destruct kart. Qed.
Lemma kept_other kart kart' l k : kart' <> kart -> kept kart (keep kart' l k) = kept kart k.
Proof. destruct kart, kart'; intros H; try reflexivity; now destruct H. Qed.

(** One call: the object kept is replaced by the lap if the call returned one and was asked to keep it; otherwise
    nothing changes. *)
Lemma one_call k c kart : let '(k', r) := optimal_laptime k c in
  (forall l, saved_by kart (c, r) l -> kept kart k' = l) /\ ((forall l, ~ saved_by kart (c, r) l) -> kept kart k' = kept kart k).
Proof.
  unfold M_Solve.optimal_laptime, saved_by. destruct (call_start k c) as [p w]. destruct (construct _ _ _ _ _ _ _ _ _ _ _) as [l| |]; cbn [fst snd].
  2,3: split; [intros l (_ & _ & E); discriminate|reflexivity].
  destruct (cl_stored c); [|split; [intros l0 (_ & _ & E); discriminate|reflexivity]].
  destruct (cl_save c) eqn:S.
  - split; [intros l0 (<- & _ & E); injection E as <-; apply kept_keep|]. intros N.
    destruct (Bool.bool_dec (cl_kart c) kart) as [<-|D]; [exfalso; apply (N l); auto|]. now apply kept_other.
  - split; [intros l0 (_ & E & _); discriminate|reflexivity].
Qed.

Lemma run_calls_length (cs : list (call P)) : forall k, length (snd (run_calls k cs)) = length cs.
Proof.
  induction cs as [|c cs IH]; intros k; cbn [M_Solve.run_calls]; [reflexivity|].
  destruct (optimal_laptime k c) as [k1 r]. specialize (IH k1). destruct (run_calls k1 cs) as [k2 rs]. cbn [snd length] in *. congruence.
Qed.
Lemma run_calls_cons k c (cs : list (call P)) : run_calls k (c :: cs) =
  (cache_after (fst (optimal_laptime k c)) cs, snd (optimal_laptime k c) :: snd (run_calls (fst (optimal_laptime k c)) cs)).
Proof. cbn [M_Solve.run_calls]. destruct (optimal_laptime k c) as [k1 r]. unfold cache_after. cbn [fst snd]. now destruct (run_calls k1 cs). Qed.
Lemma history_cons k c cs : history k (c :: cs) = (c, snd (optimal_laptime k c)) :: history (fst (optimal_laptime k c)) cs.
Proof. unfold history. now rewrite run_calls_cons. Qed.
Lemma cache_cons k c cs : cache_after k (c :: cs) = cache_after (fst (optimal_laptime k c)) cs.
Proof. unfold cache_after at 1. now rewrite run_calls_cons. Qed.

(** After any calls for any vehicles, what is kept for a type of vehicle is the lap of the last call for that type
    that completed and was asked to keep its lap; without one it is what was there before. *)
Theorem C133_kept : forall (cs : list (call P)) k kart,
  (forall l, last_saved kart (history k cs) l -> kept kart (cache_after k cs) = l) /\
  (none_saved kart (history k cs) -> kept kart (cache_after k cs) = kept kart k).
Proof.
  induction cs as [|c cs IH]; intros k kart.
  - split; [|reflexivity]. intros l (b & e & a & H & _). now destruct b.
  - rewrite history_cons, cache_cons. pose proof (one_call k c kart) as O. destruct (optimal_laptime k c) as [k1 r]. cbn [fst snd].
    destruct O as [O1 O2]. destruct (IH k1 kart) as [I1 I2]. split.
    + intros l (b & e & a & H & S & N). destruct b as [|e0 b]; cbn [app] in H.
      * injection H as <- H. rewrite I2; [now apply O1|]. now rewrite H.
      * injection H as <- H. apply I1. now exists b, e, a.
    + intros N. rewrite I2; [apply O2; intros l; apply N; now left|]. intros e l Hin. apply N. now right.
Qed.

(** A warm start takes the mesh, the kind of simulation, the lap, the controls and the multipliers of that lap. *)
Theorem C133_warm_start : forall cs k c l, cl_warm c = true -> last_saved (cl_kart c) (history k cs) l ->
  call_request (cache_after k cs) c =
  requested (cl_ready c) (cl_car c) (cl_options c) (cl_solver_options c)
    (Start (lp_mesh l) (lp_closed l) (lp_direct l) (lp_inputs l) (lp_controls l)) (Some (lp_zl l, lp_zu l, lp_lambda l)).
Proof.
  intros cs k c l W S. unfold M_Solve.call_request, call_start. rewrite W.
  destruct (C133_kept cs k (cl_kart c)) as [Hk _]. now rewrite (Hk l S).
Qed.

(** A cold start does not depend on what is kept. *)
Theorem C133_cold_start : forall k k' c, cl_warm c = false ->
  call_request k c = call_request k' c /\ snd (optimal_laptime k c) = snd (optimal_laptime k' c).
Proof.
  intros k k' c W. unfold M_Solve.call_request, M_Solve.optimal_laptime, call_start. rewrite W. split; [reflexivity|].
  destruct (construct _ _ _ _ _ _ _ _ _ _ _); try reflexivity. now destruct (cl_stored c).
Qed.

(** With nothing kept a warm start is rejected, and nothing is kept. *)
Theorem C133_nothing_kept : forall n1 n2 cs c, cl_warm c = true ->
  none_saved (cl_kart c) (history (initial_cache n1 n2) cs) ->
  optimal_laptime (cache_after (initial_cache n1 n2) cs) c = (cache_after (initial_cache n1 n2) cs, Throw).
Proof.
  intros n1 n2 cs c W N. destruct (C133_kept cs (initial_cache n1 n2) (cl_kart c)) as [_ K]. specialize (K N).
  unfold M_Solve.optimal_laptime, call_start. rewrite W, K. unfold M_Solve.construct, M_Solve.requested.
  assert (E : exists n, kept (cl_kart c) (initial_cache n1 n2) = empty_lap n) by (destruct (cl_kart c); eexists; reflexivity).
  destruct E as (n & ->). unfold empty_lap.
  cbn [sp_controls sp_mesh sp_closed lp_mesh lp_closed lp_direct lp_inputs lp_controls].
  assert (C : check_controls (repeat (MkControl DONT_OPTIMIZE [] [] [] 0%Q) n) = Ok (repeat (MkControl DONT_OPTIMIZE [] [] [] 0%Q) n)).
  { apply all_checked_again. intros j x E. apply nth_error_repeat' in E as [-> _]. cbn. auto. }
  rewrite C. reflexivity.
Qed.
End History.

(** What the new request is built from. *)
Section Resume.
Context (show_int : Z -> string) (show_num : Q -> string).
Notation requested := (requested show_int show_num).

Lemma mesh_again closed L s : mesh_admissible closed L s -> mesh_admissible closed L (mesh_used closed s) /\ mesh_used closed (mesh_used closed s) = mesh_used closed s.
Proof.
  intros [Ln H]. split; [|now destruct closed]. split; [now rewrite mesh_used_length|]. destruct closed; [|exact H].
  destruct s as [|a [|b s]]; cbn in Ln; try lia. cbn [mesh_used tl] in *. destruct H as [_ H]. split; [vm_compute; discriminate|].
  cbn [length] in *. rewrite Nat.sub_succ, Nat.sub_0_r in *. exact H.
Qed.
Lemma start_again direct m n ins cs m' ins' cs' def def' x u :
  facts direct m n ins cs -> facts direct m' n ins' cs' -> same_kinds cs cs' -> length def = length cs ->
  control_array_at_s cs def 0 x = Ok u -> exists u', control_array_at_s cs' def' 0 x = Ok u'.
Proof.
  intros F F' [Lk K] Ld H. apply all_ok_all. intros r Hr. apply in_map_iff in Hr as ([c' d'] & <- & Hin). cbn [fst snd].
  destruct (in_combine_nth _ _ _ _ Hin) as (j & Ec' & _).
  destruct (nth_error_transport _ cs _ _ Lk Ec') as (c & Ec). destruct (K j c c' Ec Ec') as (K1 & K2 & _).
  destruct (control_array_value _ _ _ _ _ H Ld) as (_ & V). destruct (nth_error_transport _ def _ _ (eq_sym Ld) Ec) as (d & Ed).
  destruct (V j c d Ec Ed) as (v & _ & Hv). pose proof (f_checked _ _ _ _ _ F _ _ Ec) as Ch. pose proof (f_checked _ _ _ _ _ F' _ _ Ec') as Ch'.
  unfold checked in Ch, Ch'. unfold control_at_s in *. rewrite K1 in *. pose proof (f_n _ _ _ _ _ F) as Hn. destruct (c_kind c) eqn:Kc.
  - eauto.
  - destruct Ch' as (_ & L' & _). destruct (rd_ok (c_values c') 0) as (a & _ & ->); [lia|eauto].
  - unfold hypermesh_value in *. rewrite K1, Kc in *. cbn [kind_eqb] in *. rewrite K2 in *.
    apply bind_ok in Hv as (i & Hi & Hv). rewrite Hi. cbn [bind]. apply rd_inv in Hv.
    destruct (rd_ok (c_values c') i) as (a & _ & ->); [|eauto]. destruct Ch as (L & _). destruct Ch' as (L' & _). rewrite L', <- L.
    apply nth_error_Some. congruence.
  - destruct (rd_ok (c_values c') 0) as (a & _ & ->); [|eauto]. rewrite (f_values _ _ _ _ _ F' _ _ Ec' ltac:(congruence)). lia.
Qed.
Lemma rates_again m n ins cs : facts false m n ins cs -> exists r, all_ok (map (fun c => rate_at c 0) cs) = Ok r.
Proof.
  intros F. apply all_ok_all. intros r Hr. apply in_map_iff in Hr as (c & <- & Hin). apply In_nth_error in Hin as (j & Ej).
  unfold rate_at. destruct (c_kind c) eqn:K; eauto. destruct (rd_ok (c_rates c) 0) as (a & _ & ->); [|eauto].
  rewrite (f_rates _ _ _ _ _ F _ _ Ej K). pose proof (f_n _ _ _ _ _ F). lia.
Qed.
Lemma pack_points m m' o o' d c s ins cs es es' : same_type m m' -> sizes_ok m o -> sizes_ok m' o' -> guess_ok d m s ins cs -> guess_ok d m' s ins cs ->
  pack m o s ins cs d c = Ok es -> pack m' o' s ins cs d c = Ok es' -> map fst es' = map fst es.
Proof.
  intros (T1 & T2 & T3 & _) Z Z' G G' H H'.
  pose proof (fun E => problem_rates' _ _ _ _ _ _ _ _ tt E Z G H) as R. pose proof (fun E => problem_rates' _ _ _ _ _ _ _ _ tt E Z' G' H') as R'.
  rewrite (pack_slots m o s ins cs d Z (guess_facts _ _ _ _ _ G) (fun E => proj2 (R E)) c (fun E => proj1 (R E))) in H.
  rewrite (pack_slots m' o' s ins cs d Z' (guess_facts _ _ _ _ _ G') (fun E => proj2 (R' E)) c (fun E => proj1 (R' E))) in H'.
  injection H as <-. injection H' as <-. rewrite !map_map.
  assert (Sl : slots m' d c (length s) cs = slots m d c (length s) cs).
  { unfold slots, point_slots, row_slots, full_slots. now rewrite T1, T2, T3. }
  rewrite Sl. apply map_ext. reflexivity.
Qed.
Lemma n_variables_type d c m m' n cs cs' : same_type m m' -> same_kinds cs cs' -> n_variables d c m' n cs' = n_variables d c m n cs.
Proof.
  intros (T1 & _) [L K]. unfold n_variables. rewrite T1.
  enough (count_full cs' = count_full cs /\ count_constant cs' = count_constant cs /\ count_hypermesh_points cs' = count_hypermesh_points cs) by (destruct H as (-> & -> & ->); reflexivity).
  revert cs' L K. induction cs as [|x cs IH]; intros [|x' cs'] L K; try discriminate; [auto|]. cbn [length] in L. injection L as L.
  destruct (IH cs' L (fun j a a' E E' => K (S j) a a' E E')) as (A & B & C). destruct (K 0 x x' eq_refl eq_refl) as (K1 & K2 & _).
  cbn [count_full count_constant count_hypermesh_points]. rewrite A, B, C, K1, K2. auto.
Qed.
Lemma n_constraints_type d c m m' n cs cs' ib ib' : same_type m m' -> same_kinds cs cs' ->
  n_constraints d c m' n cs' ib' + n_restricted ib = n_constraints d c m n cs ib + n_restricted ib'.
Proof.
  intros (T1 & _ & _ & T4) [L K]. unfold n_constraints. rewrite T1, T4.
  assert (count_full cs' = count_full cs) as ->; [|lia].
  revert cs' L K. induction cs as [|x cs IH]; intros [|x' cs'] L K; try discriminate; [auto|]. cbn [length] in L. injection L as L.
  pose proof (IH cs' L (fun j a a' E E' => K (S j) a a' E E')) as A. destruct (K 0 x x' eq_refl eq_refl) as (K1 & _).
  cbn [count_full]. now rewrite A, K1.
Qed.
Lemma guess_type d m m' s ins cs : same_type m m' -> guess_ok d m s ins cs -> guess_ok d m' s ins cs.
Proof. intros (T1 & T2 & _) (A & B & C & D & E). repeat split; auto; [congruence|]. intros r Hr. rewrite T1. auto. Qed.

Definition lap_start (l : lap) : start := Start (lp_mesh l) (lp_closed l) (lp_direct l) (lp_inputs l) (lp_controls l).

Lemma resume_core {Par} ready m o so (declared : list Par) analyse solver p w l m' o' so' ib0 ib :
  typed m o p -> sized solver -> M_Solve.construct show_int show_num ready m o so declared analyse solver p w = Ok l ->
  same_type m m' -> sizes_ok m' o' -> car_ok m' -> track_length m' = track_length m ->
  (lp_direct l = false -> length (rate_lb m) <= length (rate_lb m') /\ length (rate_ub m) <= length (rate_ub m')) ->
  set_integrals (integral_names m) (o_integral o) = Ok ib0 -> set_integrals (integral_names m') (o_integral o') = Ok ib ->
  exists rq0 rq, requested ready m o so p w = Ok rq0 /\ let a := solver rq0 in
    requested true m' o' so' (lap_start l) (Some (lp_zl l, lp_zu l, lp_lambda l)) =
      (if Nat.eqb (n_restricted ib) (n_restricted ib0) then Ok rq else Throw) /\
    rq_start rq = aw_x a /\ rq_multipliers rq = Some (aw_lambda a, aw_zl a, aw_zu a) /\
    rq_mesh rq = rq_mesh rq0 /\ rq_closed rq = rq_closed rq0 /\ rq_direct rq = rq_direct rq0 /\
    same_kinds (rq_controls rq0) (rq_controls rq) /\ rq_options rq = M_Solve.option_text show_int show_num so' /\
    rq_sigma rq = o_sigma o' /\ rq_integrals rq = ib /\
    rq_q0 rq = nth 0 (lp_inputs l) [].
Proof.
  intros T Sz H St Z' C' Lt Rb Hi0 Hi.
  destruct (C132_answer show_int show_num _ _ _ _ _ _ _ _ _ _ T (fun rq => proj1 (Sz rq)) H) as (rq0 & Hr & Ans). exists rq0. cbv zeta in Ans.
  destruct (request_problem _ _ _ _ _ _ _ _ _ T Hr) as (es0 & Pb & E1 & E2).
  destruct (Sz rq0) as (Sx & Sl & Su & Sla). destruct Ans as (_ & _ & _ & Zl & Zu & La & Me & Cl & Di & K & G & (es & Pk & X1 & X2) & _).
  pose proof (p_sizes _ _ _ _ _ _ _ _ _ _ _ Pb) as Z. pose proof T as (_ & C & Lc & Lr).
  pose proof Hr as Hr'. apply requested_inv in Hr' as (cs & s & ib1 & u & q0 & es1 & bs & -> & Hc & Hs & Hz & Hi1 & Hu & Hq & He & Hb & _ & Erq).
  rewrite Hi0 in Hi1. injection Hi1 as <-. subst rq0.
  cbn [rq_options rq_direct rq_closed rq_mesh rq_q0 rq_u0 rq_du0 rq_controls rq_integrals rq_sigma rq_start rq_bounds rq_cbounds rq_multipliers] in *.
  set (rq0 := Request _ _ _ _ _ _ _ _ _ _ _ _ _ _) in *. set (a := solver rq0) in *.
  pose proof (guess_facts _ _ _ _ _ (p_guess _ _ _ _ _ _ _ _ _ _ _ Pb)) as F0. pose proof (guess_facts _ _ _ _ _ G) as F.
  pose proof (guess_type _ _ _ _ _ _ St G) as G'. pose proof (guess_facts _ _ _ _ _ G') as F'.
  apply mesh_checked in Hs as (M & Es). destruct (mesh_again _ _ _ M) as (M2 & Ms). rewrite <- Es in M2, Ms.
  assert (Hs' : check_mesh (lp_closed l) (track_length m') (lp_mesh l) = Ok s) by (rewrite Me, Cl, Lt; apply mesh_checked; auto).
  assert (Hc' : check_controls (lp_controls l) = Ok (lp_controls l)) by (destruct G as ((cs0 & Hc0) & _); eapply C27_check_idempotent; eauto).
  assert (Hn : 0 < length s) by (pose proof (f_n _ _ _ _ _ F); lia).
  assert (Hd : sp_direct p = false -> no_constant (lp_controls l) /\ rates_bounded m' (lp_controls l)).
  { intros D. destruct (problem_rates' _ _ _ _ _ _ _ _ tt D Z G Pk) as (Nc & R). split; [exact Nc|]. rewrite D in *.
    intros j c Ej Kc. destruct (R j c Ej Kc). destruct (Rb Di). lia. }
  destruct (pack_ok _ m' o' s (lp_inputs l) (lp_controls l) (sp_closed p) Z' G' Hd) as (es' & Pk' & Le').
  pose proof (bounds_total m' s (lp_controls l) ib (sp_direct p) (lp_inputs l) F' C' (sp_closed p)) as Hb'.
  destruct (nth_error (lp_inputs l) 0) as [q0'|] eqn:Hq'; [|apply nth_error_None in Hq'; pose proof (f_inputs _ _ _ _ _ F); lia].
  assert (Ld : length (controls_def m) = length cs) by (rewrite (f_cs _ _ _ _ _ F0); apply Z).
  assert (exists uu, (if sp_direct p then bind (control_array_at_s (lp_controls l) (controls_def m') 0 (nth 0 s 0%Q)) (fun u => Ok (u, []))
   else control_array_and_derivative_at_s (lp_controls l) (controls_def m') 0 (nth 0 s 0%Q)) = Ok uu) as (uu & Huu).
  { revert Hu F0 F F'. case (sp_direct p); intros Hu F0 F F'.
    - apply bind_ok in Hu as (u1 & Hu & _). destruct (start_again _ _ _ _ _ _ _ _ _ (controls_def m') _ _ F0 F' K Ld Hu) as (u' & ->). eexists. reflexivity.
    - unfold control_array_and_derivative_at_s in *. apply bind_ok in Hu as (u1 & Hu & _).
      destruct (start_again _ _ _ _ _ _ _ _ _ (controls_def m') _ _ F0 F' K Ld Hu) as (u' & ->). cbn [bind].
      destruct (rates_again _ _ _ _ F') as (r & ->). eexists. reflexivity. }
  assert (Hz' : check_sizes (lp_direct l) (length s) (lp_inputs l) (lp_controls l) = Ok tt) by (rewrite Di; apply G).
  eexists. split; [exact Hr|]. cbv zeta.
  rewrite <- Cl in Pk', Hb'. rewrite <- Di in Pk', Hb', Huu.
  rewrite (requested_intro show_int show_num m' o' so' (lap_start l) _ (lp_controls l) s ib uu q0' es' _ Hc' Hs' Hz' Hi Huu Hq' Hn Pk' Hb').
  cbn [lap_start sp_direct sp_closed].
  split.
  { assert (Lb : length bs = n_constraints (sp_direct p) (sp_closed p) m (length s) cs ib0).
    { rewrite (bounds_total m s cs ib0 (sp_direct p) (sp_inputs p) F0 C (sp_closed p)) in Hb. injection Hb as <-. eapply bounds_length; eauto. }
    assert (Lv : n_variables (lp_direct l) (lp_closed l) m' (length s) (lp_controls l) = length (map fst es1)).
    { rewrite Di, Cl, (n_variables_type _ _ m m' _ cs _ St K), map_length. symmetry. assert (es1 = es0) as -> by (pose proof (p_pack _ _ _ _ _ _ _ _ _ _ _ Pb); congruence). eapply packed_length; eauto. }
    pose proof (n_constraints_type (sp_direct p) (sp_closed p) m m' (length s) cs (lp_controls l) ib0 ib St K) as Nc.
    rewrite Lv, Zl, Zu, La. unfold check_warm_start. rewrite Sl, Su, Sla, !Nat.eqb_refl. cbn [negb].
    rewrite Lb, Di, Cl. destruct (Nat.eqb_spec (n_restricted ib) (n_restricted ib0)) as [E|E].
    - rewrite (proj2 (Nat.eqb_eq _ _)) by lia. reflexivity.
    - rewrite (proj2 (Nat.eqb_neq _ _)) by lia. reflexivity. }
  cbn [rq_options rq_direct rq_closed rq_mesh rq_q0 rq_u0 rq_du0 rq_controls rq_integrals rq_sigma rq_start rq_bounds rq_cbounds rq_multipliers].
  rewrite Cl, Di in Pk'. split; [rewrite <- X1; exact (pack_points m m' o o' _ _ _ _ _ _ _ St Z Z' G G' Pk Pk')|].
  split; [reflexivity|]. split; [reflexivity|]. do 2 (split; [reflexivity|]). split; [exact K|].
  split; [reflexivity|]. split; [reflexivity|]. split; [reflexivity|]. symmetry. now apply nth_error_nth.
Qed.

Context {P : Type}.
Notation call_request := (call_request show_int show_num).
Notation optimal_laptime := (optimal_laptime show_int show_num).
Notation cache_after := (cache_after show_int show_num).
Notation history := (history show_int show_num).

Lemma cache_app (b a : list (call P)) : forall k, cache_after k (b ++ a) = cache_after (cache_after k b) a.
Proof. induction b as [|c b IH]; intros k; [reflexivity|]. cbn [app]. rewrite !cache_cons. apply IH. Qed.

(** Two runs on the same type of car and a track of the same length, the first of which kept its lap: the second,
    after any calls that keep none of that type, starts from the point and the multipliers the solver returned for
    the first, on its mesh and with its kind of simulation, and with its own options. With another number of
    restricted integral quantities it is rejected. *)
Lemma resume_calls (k : cache) (before : list (call P)) (e : call P) (after : list (call P)) (c : call P) l ib0 ib :
  let k1 := cache_after k before in
  let k2 := cache_after k (before ++ e :: after)%list in
  typed (cl_car e) (cl_options e) (fst (call_start k1 e)) -> sized (cl_solver e) ->
  snd (optimal_laptime k1 e) = Ok l -> cl_save e = true -> none_saved (cl_kart e) (history (fst (optimal_laptime k1 e)) after) ->
  cl_kart c = cl_kart e -> cl_warm c = true -> cl_ready c = true ->
  same_type (cl_car e) (cl_car c) -> sizes_ok (cl_car c) (cl_options c) -> car_ok (cl_car c) ->
  track_length (cl_car c) = track_length (cl_car e) ->
  (lp_direct l = false -> length (rate_lb (cl_car e)) <= length (rate_lb (cl_car c)) /\ length (rate_ub (cl_car e)) <= length (rate_ub (cl_car c))) ->
  set_integrals (integral_names (cl_car e)) (o_integral (cl_options e)) = Ok ib0 ->
  set_integrals (integral_names (cl_car c)) (o_integral (cl_options c)) = Ok ib ->
  exists rq0 rq, call_request k1 e = Ok rq0 /\ let a := cl_solver e rq0 in
    call_request k2 c = (if Nat.eqb (n_restricted ib) (n_restricted ib0) then Ok rq else Throw) /\
    rq_start rq = aw_x a /\ rq_multipliers rq = Some (aw_lambda a, aw_zl a, aw_zu a) /\
    rq_mesh rq = rq_mesh rq0 /\ rq_closed rq = rq_closed rq0 /\ rq_direct rq = rq_direct rq0 /\
    same_kinds (rq_controls rq0) (rq_controls rq) /\
    rq_options rq = M_Solve.option_text show_int show_num (cl_solver_options c) /\
    rq_sigma rq = o_sigma (cl_options c) /\ rq_integrals rq = ib /\ rq_q0 rq = nth 0 (lp_inputs l) [].
Proof.
  intros k1 k2 T Sz H Sv N Kc W R St Z C Lt Rb H0 Hi.
  assert (Ks : kept (cl_kart c) k2 = l).
  { unfold k2. rewrite cache_app, cache_cons. fold k1. rewrite Kc. pose proof (one_call show_int show_num k1 e (cl_kart e)) as O.
    destruct (C133_kept show_int show_num after (fst (optimal_laptime k1 e)) (cl_kart e)) as (_ & K2). rewrite (K2 N).
    destruct (optimal_laptime k1 e) as [k' r]. cbn [fst snd] in *. destruct O as [O _]. apply O. repeat split; auto. }
  unfold M_Solve.optimal_laptime in H. destruct (call_start k1 e) as [p w] eqn:Cs.
  destruct (construct _ _ _ _ _ _ _ _ _ _ _) as [l'| |] eqn:Hc; try discriminate. destruct (cl_stored e); [|discriminate]. injection H as ->.
  cbn [fst] in T. destruct (resume_core _ _ _ _ _ _ _ _ _ _ _ _ (cl_solver_options c) _ _ T Sz Hc St Z C Lt Rb H0 Hi) as (rq0 & rq & Hr & A).
  exists rq0, rq. split; [unfold M_Solve.call_request; now rewrite Cs|]. cbv zeta in *. destruct A as (A1 & A).
  split; [|exact A]. unfold M_Solve.call_request, call_start. rewrite W, R, Ks. exact A1.
Qed.

Theorem C133_resumes : forall (k : cache) (before : list (call P)) (e : call P) (after : list (call P)) (c : call P) l ib0 ib,
  let k1 := cache_after k before in
  let k2 := cache_after k (before ++ e :: after)%list in
  typed (cl_car e) (cl_options e) (fst (call_start k1 e)) -> sized (cl_solver e) ->
  snd (optimal_laptime k1 e) = Ok l -> cl_save e = true -> none_saved (cl_kart e) (history (fst (optimal_laptime k1 e)) after) ->
  cl_kart c = cl_kart e -> cl_warm c = true -> cl_ready c = true ->
  same_type (cl_car e) (cl_car c) -> sizes_ok (cl_car c) (cl_options c) -> car_ok (cl_car c) ->
  track_length (cl_car c) = track_length (cl_car e) ->
  (lp_direct l = false -> length (rate_lb (cl_car e)) <= length (rate_lb (cl_car c)) /\ length (rate_ub (cl_car e)) <= length (rate_ub (cl_car c))) ->
  set_integrals (integral_names (cl_car e)) (o_integral (cl_options e)) = Ok ib0 ->
  set_integrals (integral_names (cl_car c)) (o_integral (cl_options c)) = Ok ib ->
  n_restricted ib = n_restricted ib0 ->
  exists rq0 rq, call_request k1 e = Ok rq0 /\ let a := cl_solver e rq0 in
    call_request k2 c = Ok rq /\ rq_start rq = aw_x a /\ rq_multipliers rq = Some (aw_lambda a, aw_zl a, aw_zu a) /\
    rq_mesh rq = rq_mesh rq0 /\ rq_closed rq = rq_closed rq0 /\ rq_direct rq = rq_direct rq0 /\
    same_kinds (rq_controls rq0) (rq_controls rq) /\
    rq_options rq = M_Solve.option_text show_int show_num (cl_solver_options c) /\
    rq_sigma rq = o_sigma (cl_options c) /\ rq_integrals rq = ib /\ rq_q0 rq = nth 0 (lp_inputs l) [].
Proof.
  intros k before e after c l ib0 ib k1 k2 T Sz H Sv N Kc W R St Z C Lt Rb H0 Hi E.
  destruct (resume_calls k before e after c l ib0 ib T Sz H Sv N Kc W R St Z C Lt Rb H0 Hi) as (rq0 & rq & A).
  exists rq0, rq. rewrite E, Nat.eqb_refl in A. exact A.
Qed.

Theorem C133_other_integrals : forall (k : cache) (before : list (call P)) (e : call P) (after : list (call P)) (c : call P) l ib0 ib,
  let k1 := cache_after k before in
  let k2 := cache_after k (before ++ e :: after)%list in
  typed (cl_car e) (cl_options e) (fst (call_start k1 e)) -> sized (cl_solver e) ->
  snd (optimal_laptime k1 e) = Ok l -> cl_save e = true -> none_saved (cl_kart e) (history (fst (optimal_laptime k1 e)) after) ->
  cl_kart c = cl_kart e -> cl_warm c = true -> cl_ready c = true ->
  same_type (cl_car e) (cl_car c) -> sizes_ok (cl_car c) (cl_options c) -> car_ok (cl_car c) ->
  track_length (cl_car c) = track_length (cl_car e) ->
  (lp_direct l = false -> length (rate_lb (cl_car e)) <= length (rate_lb (cl_car c)) /\ length (rate_ub (cl_car e)) <= length (rate_ub (cl_car c))) ->
  set_integrals (integral_names (cl_car e)) (o_integral (cl_options e)) = Ok ib0 ->
  set_integrals (integral_names (cl_car c)) (o_integral (cl_options c)) = Ok ib ->
  n_restricted ib <> n_restricted ib0 -> optimal_laptime k2 c = (k2, Throw).
Proof.
  intros k before e after c l ib0 ib k1 k2 T Sz H Sv N Kc W R St Z C Lt Rb H0 Hi E.
  destruct (resume_calls k before e after c l ib0 ib T Sz H Sv N Kc W R St Z C Lt Rb H0 Hi) as (rq0 & rq & _ & A & _).
  rewrite (proj2 (Nat.eqb_neq _ _) E) in A. fold k2 in A. unfold M_Solve.call_request in A. unfold M_Solve.optimal_laptime.
  destruct (call_start k2 c) as [p w]. unfold M_Solve.construct. rewrite A. reflexivity.
Qed.

(** The warm start is kept for the type of vehicle, not for the track or the simulation: a lap kept on one track is
    taken on another whose length admits its mesh, and the mesh and the kind of simulation that the second call asks
    for are not used. *)
Theorem C133_mesh_asked_for_refuted : forall (cs : list (call P)) k (c : call P) l rq,
  cl_warm c = true -> last_saved (cl_kart c) (history k cs) l -> typed (cl_car c) (cl_options c) (lap_start l) ->
  NoDup (integral_names (cl_car c)) -> call_request (cache_after k cs) c = Ok rq ->
  rq_mesh rq = mesh_used (lp_closed l) (lp_mesh l) /\ rq_closed rq = lp_closed l /\ rq_direct rq = lp_direct l /\
  (length (sp_mesh (cl_cold c)) <> length (lp_mesh l) -> rq_mesh rq <> mesh_used (sp_closed (cl_cold c)) (sp_mesh (cl_cold c))).
Proof.
  intros cs k c l rq W S T Nd H. rewrite (C133_warm_start show_int show_num cs k c l W S) in H.
  destruct (C132_request show_int show_num _ _ _ _ _ _ _ T Nd H) as (_ & _ & D & Cl & _ & M & Em & _). cbn [lap_start sp_mesh sp_closed sp_direct] in *.
  repeat split; auto. rewrite Em. intros Ne E. apply (f_equal (@length Q)) in E. rewrite mesh_used_length in E by apply M.
  destruct M as [M _]. cbn [sp_mesh] in M.
  destruct (sp_closed (cl_cold c)); cbn [mesh_used] in E; [|congruence]. destruct (sp_mesh (cl_cold c)) as [|x [|y s]] eqn:Es; cbn in *; lia.
Qed.
End Resume.

(** ** Concrete cases *)
Definition ex_show_int (z : Z) : string := if Z.eqb z 0 then "0" else "n".
Definition ex_show_num (q : Q) : string := "x".
Definition ex_so : solver_options := api_options 0 false.
Definition ex_p : start := Start ex_s false true ex_in ex_cs.
(** answers with the start vector and multipliers that count *)
Definition ex_solver (rq : request) : answer :=
  Answer true 7 (rq_start rq) (map (fun _ => 1%Q) (rq_start rq)) (map (fun _ => 2%Q) (rq_start rq)) (map (fun _ => 3%Q) (rq_cbounds rq)).
Example ex_typed : typed ex_car ex_opts ex_p.
Proof.
  split; [exact ex_sizes|]. split; [split; [reflexivity|]; split; reflexivity|]. split; [reflexivity|].
  intros r [<-|[<-|[<-|[]]]]; reflexivity.
Qed.
Example ex_sized : sized ex_solver.
Proof. intros rq. cbn. rewrite !map_length. auto. Qed.
Example C132_case : exists rq l,
  requested ex_show_int ex_show_num true ex_car ex_opts ex_so ex_p None = Ok rq /\
  rq_start rq = [51; 2; 12; 52; 3; 13; 21; 22; 31]%Q /\ rq_multipliers rq = None /\ rq_mesh rq = [0; 10; 20]%Q /\
  length (rq_cbounds rq) = 6 /\
  construct ex_show_int ex_show_num true ex_car ex_opts ex_so ([] : list nat) (fun _ => Analysis true []) ex_solver ex_p None = Ok l /\
  lp_iterations l = 7 /\ map c_values (lp_controls l) = [[11; 12; 13]; []; [21; 22]; [31]]%Q.
Proof. eexists _, _. split; [vm_compute; reflexivity|]. vm_compute. repeat (split; [reflexivity|]). reflexivity. Qed.

Definition ex_call (warm save : bool) : call nat :=
  Call nat false true ex_car ex_opts ex_so [] (fun _ => Analysis true []) ex_solver ex_p warm save true.
(** a kept run, one that keeps nothing, and a warm start *)
Example C133_case : exists l rq, let k := initial_cache 4 5 in
  snd (optimal_laptime ex_show_int ex_show_num k (ex_call false true)) = Ok l /\
  call_request ex_show_int ex_show_num (cache_after ex_show_int ex_show_num k [ex_call false true; ex_call false false]) (ex_call true false) = Ok rq /\
  rq_start rq = [51; 2; 12; 52; 3; 13; 21; 22; 31]%Q /\
  rq_multipliers rq = Some (repeat 3%Q 6, repeat 1%Q 9, repeat 2%Q 9) /\
  snd (optimal_laptime ex_show_int ex_show_num (cache_after ex_show_int ex_show_num k [ex_call false false]) (ex_call true false)) = Throw.
Proof. eexists _, _. cbv zeta. split; [vm_compute; reflexivity|]. split; [vm_compute; reflexivity|]. vm_compute. repeat (split; [reflexivity|]). reflexivity. Qed.
Example C133_hypotheses : exists l ib, let k1 := initial_cache 4 5 in let e := ex_call false true in let c := ex_call true false in
  typed (cl_car e) (cl_options e) (fst (call_start k1 e)) /\ sized (cl_solver e) /\
  snd (optimal_laptime ex_show_int ex_show_num k1 e) = Ok l /\ cl_save e = true /\
  none_saved (cl_kart e) (history ex_show_int ex_show_num (fst (optimal_laptime ex_show_int ex_show_num k1 e)) [ex_call false false]) /\
  same_type (cl_car e) (cl_car c) /\ sizes_ok (cl_car c) (cl_options c) /\ car_ok (cl_car c) /\
  set_integrals (integral_names (cl_car e)) (o_integral (cl_options e)) = Ok ib /\ lp_direct l = true.
Proof.
  eexists _, _. cbv zeta. split; [exact ex_typed|]. split; [exact ex_sized|]. split; [vm_compute; reflexivity|]. split; [reflexivity|].
  split; [rewrite history_cons; intros e l [<-|[]] (_ & E & _); cbn in E; discriminate E|]. split; [repeat split|]. split; [exact ex_sizes|]. split; [apply ex_typed|]. split; reflexivity.
Qed.

Print Assumptions C132_options.
Print Assumptions C132_request.
Print Assumptions C132_not_ready.
Print Assumptions C132_accepted.
Print Assumptions C132_answer.
Print Assumptions C132_failure_thrown.
Print Assumptions C132_completes.
Print Assumptions C133_kept.
Print Assumptions C133_warm_start.
Print Assumptions C133_cold_start.
Print Assumptions C133_nothing_kept.
Print Assumptions C133_resumes.
Print Assumptions C133_other_integrals.
Print Assumptions C133_mesh_asked_for_refuted.
