(** Laps saved to files. *)
From Coq Require Import String QArith Bool Arith Lia List.
From Verif Require Import M_Controls M_Laptime M_Track M_Options M_Lapfile S_Lapfile L_Track L_Track2 L_Colloc3 L_Lapfile.
Import ListNotations.
Local Open Scope string_scope.

(** ** C107: saving and reloading *)

(** A computed lap can be saved and loaded, and comes back with the same formulation, mesh,
    states, controls, trajectory and multipliers, and its lap time to six decimals. *)
Theorem C107_saved_and_reloaded_partial : forall nm l, distinct_names nm -> complete_lap nm l ->
  exists d l', save_lap nm l = Ok d /\ load_lap nm d = Ok l' /\ same_solution l l' /\
    - (1 # 2000000) <= l_laptime l' - l_laptime l <= 1 # 2000000.
Proof.
  intros nm l HN HL. assert (Hit : l_iterations l <> None) by apply HL. destruct (l_iterations l) as [it|] eqn:E; [|congruence].
  exists (doc_of_lap nm l it), (reloaded_lap l). split; [now apply save_lap_ok|]. split; [now apply load_lap_ok|]. split.
  - unfold same_solution, reloaded_lap. cbn. repeat split. induction (l_controls l) as [|c cs IH]; constructor; [|exact IH].
    repeat split.
  - apply round6_close.
Qed.

(** The names of the Formula 1 car are distinct. *)
Definition f1_names : names :=
  let v := f1_info [] [] [] [] [] in MkNames (v_key v) (v_inputs v) (v_controls v) 5.
Example C107_f1_names : distinct_names f1_names.
Proof.
  assert (D : forall l : list string, (fix nd l := match l with [] => true | a :: l' => negb (existsb (String.eqb a) l') && nd l' end) l = true -> NoDup l).
  { induction l as [|a l IH]; intro H; constructor; apply andb_prop in H; destruct H as [H1 H2]; [|now apply IH].
    intro HI. apply negb_true_iff in H1. assert (existsb (String.eqb a) l = true); [|congruence].
    apply existsb_exists. exists a. split; [exact HI|apply String.eqb_refl]. }
  split; apply D; vm_compute; reflexivity.
Qed.
Definition short_names : names := MkNames "road.arclength" ["speed"; "time"] ["steering"; "throttle"; "brake-bias"] 0.
Definition short_lap (direct : bool) (laptime : Q) : lap :=
  MkLap true direct 2 [0; 10] [[1; 0]; [2; 1]]
    [MkControl FULL_MESH [] [1; 2] (if direct then [] else [3; 4]) (1 # 2); MkControl HYPERMESH [0] [1] [] 0; MkControl DONT_OPTIMIZE [] [] [] 0]
    [0; 1] [0; 0] [0; 0] (Some 12%nat) [1] [2] [3] laptime.
Example C107_example : forall direct laptime, distinct_names short_names /\ complete_lap short_names (short_lap direct laptime).
Proof.
  intros direct laptime. split.
  - split; repeat constructor; cbn; intuition discriminate.
  - unfold complete_lap. cbn. repeat split; try lia; try discriminate; repeat constructor; cbn; try discriminate; destruct direct; auto.
Qed.

(** A reloaded lap can be used as a warm start exactly when the lap that was saved could: the
    sizes of states and controls fit, and the problem has as many variables and constraints. *)
Theorem C107_warm_start_from_file : forall nm l d l' m ib, distinct_names nm -> complete_lap nm l ->
  save_lap nm l = Ok d -> load_lap nm d = Ok l' ->
  let accepted x := check_sizes (l_direct x) (length (l_s x)) (l_inputs x) (l_controls x) = Ok tt /\
    check_warm_start (n_variables (l_direct x) (l_closed x) m (l_points x) (l_controls x))
                     (n_constraints (l_direct x) (l_closed x) m (l_points x) (l_controls x) ib) (l_zl x) (l_zu x) (l_lambda x) = Ok tt in
  check_sizes (l_direct l) (length (l_s l)) (l_inputs l) (l_controls l) = Ok tt /\
  (accepted l <-> accepted l') /\
  (n_inputs m = length (k_inputs nm) -> n_extra m = k_extra nm -> accepted l ->
    length (l_zl l) = (ld_variables d * n_elements (l_closed l) (ld_points d) + count_constant (l_controls l) + count_hypermesh_points (l_controls l))%nat /\
    length (l_lambda l) = (ld_constraints d * n_elements (l_closed l) (ld_points d) + n_restricted ib)%nat).
Proof.
  intros nm l d l' m ib HN HL Hs Hl. assert (Hit : l_iterations l <> None) by apply HL. destruct (l_iterations l) as [it|] eqn:E; [|congruence].
  rewrite (save_lap_ok nm l it HL E) in Hs. assert (d = doc_of_lap nm l it) as -> by congruence. clear Hs.
  rewrite (load_lap_ok nm l it HN HL) in Hl. assert (l' = reloaded_lap l) as -> by congruence. clear Hl.
  cbv zeta.
  assert (SZ : forall f, (forall c, c_kind (f c) = c_kind c /\ c_values (f c) = c_values c /\ c_rates (f c) = c_rates c) ->
    check_sizes (l_direct l) (length (l_s l)) (l_inputs l) (map f (l_controls l)) = Ok tt).
  { intros f Hf. destruct HL as (Hn & Hi & _ & Hs & _ & _ & _ & _ & HC & _). unfold check_sizes. rewrite Hs, Hi, Nat.eqb_refl. cbn [negb].
    induction (l_controls l) as [|c cs IH]; [reflexivity|]. inversion HC as [|? ? H1 H2]; subst. cbn [map for_each]. 
    destruct (Hf c) as (F1 & F2 & F3). unfold check_size_control. rewrite F1, F2, F3. unfold complete_control in H1.
    destruct (c_kind c); cbn [kind_eqb bind]; try (now apply IH).
    destruct H1 as (_ & H1 & H3). rewrite H1, H3, Nat.eqb_refl. cbn [negb]. destruct (l_direct l); rewrite ?Nat.eqb_refl; cbn; now apply IH. }
  destruct (count_reloaded (l_controls l)) as (C1 & C2 & C3).
  split; [|split].
  - rewrite <- (map_id (l_controls l)). apply SZ. auto.
  - unfold reloaded_lap. cbn [l_closed l_direct l_points l_s l_inputs l_controls l_zl l_zu l_lambda].
    unfold n_variables, n_constraints. rewrite C1, C2, C3.
    assert (S1 := SZ (fun c => c) ltac:(auto)). rewrite map_id in S1.
    assert (S2 := SZ reloaded_control ltac:(now intros [])). rewrite S1, S2. tauto.
  - intros Hq Hx (_ & H). apply warm_start_iff in H. destruct H as (H1 & H2 & H3). cbn [doc_of_lap ld_variables ld_constraints ld_points].
    rewrite H1, H3. unfold n_variables, n_constraints, variables_per_point, constraints_per_element. rewrite Hq, Hx. split; lia.
Qed.

(** The lap time is cut to six decimals. *)
Theorem C107_laptime_refuted : exists nm l d l', distinct_names nm /\ complete_lap nm l /\ save_lap nm l = Ok d /\ load_lap nm d = Ok l' /\
  ~ l_laptime l' == l_laptime l.
Proof.
  destruct (C107_example true (1 # 3)) as (HN & HL).
  exists short_names, (short_lap true (1 # 3)), (doc_of_lap short_names (short_lap true (1 # 3)) 12), (reloaded_lap (short_lap true (1 # 3))).
  split; [exact HN|]. split; [exact HL|]. split; [now apply save_lap_ok|]. split; [now apply load_lap_ok|]. vm_compute. discriminate.
Qed.
(** The dissipations of the controls are lost: the same problem cannot be set up again. *)
Theorem C107_dissipation_refuted : forall nm l d l' i c, distinct_names nm -> complete_lap nm l ->
  save_lap nm l = Ok d -> load_lap nm d = Ok l' -> nth_error (l_controls l) i = Some c -> ~ c_dissipation c == 0 ->
  exists c', nth_error (l_controls l') i = Some c' /\ ~ c_dissipation c' == c_dissipation c.
Proof.
  intros nm l d l' i c HN HL Hs Hl Hi Hd. assert (Hit : l_iterations l <> None) by apply HL. destruct (l_iterations l) as [it|] eqn:E; [|congruence].
  rewrite (save_lap_ok nm l it HL E) in Hs. assert (d = doc_of_lap nm l it) as -> by congruence.
  rewrite (load_lap_ok nm l it HN HL) in Hl. assert (l' = reloaded_lap l) as -> by congruence.
  exists (reloaded_control c). split; [unfold reloaded_lap; cbn [l_controls]; now apply map_nth_error|].
  destruct c as [k h v r dd]. cbn in *. intro H. apply Hd. now symmetry.
Qed.
(** A lap that was loaded cannot be saved: the number of iterations was never read. *)
Theorem C107_save_again_refuted : forall nm d l' d', load_lap nm d = Ok l' -> save_lap nm l' <> Ok d'.
Proof.
  intros nm d l' d' H HS.
  assert (E : l_iterations l' = None).
  { unfold load_lap in H.
    repeat match type of H with bind ?r _ = _ => destruct r; cbn [bind] in H; try discriminate end.
    assert (X : forall a b : lap, Ok a = Ok b -> a = b) by congruence. apply X in H. now rewrite <- H. }
  unfold save_lap in HS. rewrite E in HS.
  repeat match type of HS with bind ?r _ = _ => destruct r eqn:?; cbn [bind] in HS; try discriminate end.
Qed.
(** A hypermesh with no points passes the checks of the controls, and cannot be saved. *)
Theorem C107_empty_hypermesh_refuted : exists c, check_control c = Ok c /\ forall direct, write_control direct c = UB.
Proof. exists (MkControl HYPERMESH [] [] [] 0). split; reflexivity. Qed.

Print Assumptions C107_saved_and_reloaded_partial.
Print Assumptions C107_warm_start_from_file.
Print Assumptions C107_laptime_refuted.
Print Assumptions C107_dissipation_refuted.
Print Assumptions C107_save_again_refuted.
Print Assumptions C107_empty_hypermesh_refuted.
