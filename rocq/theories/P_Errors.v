(** Reported errors of the fitted boundaries. Property C41. *)
From Coq Require Import Reals Lra Lia List.
From Coquelicot Require Import Rcomplements.
From Verif Require Import M_Errors S_Errors L_Errors.
Import ListNotations.
Local Open Scope R_scope.

(** Positive element lengths and length scale, one error per point, at least one element. *)
Definition valid_mesh (closed : bool) (x0 : R) (ds : list R) (last_ds : R) (rest : list R) : Prop :=
  0 < x0 /\ Forall (fun d => 0 < d) ds /\ length rest = length ds /\ (if closed then 0 < last_ds else ds <> []).

(** The maximum error is the largest of the point errors (the square roots of the squared distances). *)
Theorem C41_max_is_largest : forall closed x0 ds last_ds first rest, valid_mesh closed x0 ds last_ds rest ->
  let m := fst (boundary_errors closed x0 ds last_ds first rest) in
  (forall e, In e (first :: rest) -> sqrt e <= m) /\ exists e, In e (first :: rest) /\ m = sqrt e.
Proof.
  intros closed x0 ds last_ds first rest (Hx & Hp & Hl & _). unfold boundary_errors. cbn [fst].
  destruct (error_loop_max x0 ds 0 rest (Acc (sqrt first) 0 (sqrt first)) Hl) as (A & B & C). cbn [a_max] in *. cbv zeta. split.
  - intros e [<-|He]; [exact A|now apply B].
  - destruct C as [C|[e [He C]]]; [exists first; split; [now left|exact C]|exists e; split; [now right|exact C]].
Qed.

(** The square of the L2 error, times the length of the track, is the trapezoidal integral of the
    squared distances along the arclength, over the whole lap if the track is closed. *)
Theorem C41_l2_is_mean_square : forall closed x0 ds last_ds first rest, valid_mesh closed x0 ds last_ds rest ->
  (forall e, In e (first :: rest) -> 0 <= e) ->
  let s := arclengths 0 x0 ds in
  let track_length := last s 0 + (if closed then last_ds * x0 else 0) in
  let l2 := snd (boundary_errors closed x0 ds last_ds first rest) in
  l2 * l2 * track_length = 
  trapezoid (combine s (first :: rest) ++ if closed then [(track_length, first)] else []).
Proof.
  intros closed x0 ds last_ds first rest (Hx & Hp & Hl & Hc) Hpos. unfold boundary_errors. cbn [snd].
  set (s := arclengths 0 x0 ds). set (a := error_loop s rest (Acc (sqrt first) 0 (sqrt first))). cbv zeta.
  assert (Hf : 0 <= first) by (apply Hpos; now left).
  destruct (arclengths_last 0 x0 ds Hx Hp) as [La Lb]. fold s in La, Lb.
  destruct (error_loop_trapezoid x0 ds 0 first rest (Acc (sqrt first) 0 (sqrt first)) Hl Hpos) as (T & P & W & T0); [reflexivity|exact Hp|exact Hx|]. 
  fold s in T, P, T0. fold a in T, P. cbn [a_sum] in T.
  rewrite sqrt_sqrt.
  2: { apply Rdiv_le_0_compat; destruct closed; [|specialize (Lb Hc); lra|assert (0 < last_ds * x0) by (apply Rmult_lt_0_compat; assumption); lra|specialize (Lb Hc); lra].
       assert (0 < last_ds * x0) by (apply Rmult_lt_0_compat; assumption). replace (last s 0 + last_ds * x0 - last s 0) with (last_ds * x0) by ring.
       rewrite T, Rplus_0_l. assert (0 <= a_prev a * a_prev a + sqrt first * sqrt first) by nra. nra. }
  destruct closed.
  - assert (0 < last_ds * x0) by (apply Rmult_lt_0_compat; assumption). replace (last s 0 + last_ds * x0 - last s 0) with (last_ds * x0) by ring.
    rewrite T, P, sqrt_sqrt by exact Hf. rewrite (trapezoid_snoc s (first :: rest)); [|unfold s; rewrite arclengths_length; cbn; lia|unfold s; destruct (arclengths_cons 0 x0 ds) as [t ->]; discriminate].
    unfold Rdiv at 1. rewrite (Rmult_assoc _ (/ _)), Rinv_l by lra. nra.
  - specialize (Lb Hc). rewrite T, app_nil_r. unfold Rdiv. rewrite Rmult_assoc, Rinv_l by lra. lra.
Qed.

(** The L2 error is between zero and the maximum error. *)
Theorem C41_l2_at_most_max : forall closed x0 ds last_ds first rest, valid_mesh closed x0 ds last_ds rest ->
  let '(m, l2) := boundary_errors closed x0 ds last_ds first rest in 0 <= l2 <= m.
Proof.
  intros closed x0 ds last_ds first rest Hv. pose proof (C41_max_is_largest _ _ _ _ first _ Hv) as [Hm _].
  revert Hm. unfold boundary_errors. cbn [fst]. destruct Hv as (Hx & Hp & Hl & Hc).
  set (s := arclengths 0 x0 ds). set (a := error_loop s rest (Acc (sqrt first) 0 (sqrt first))). intros Hm.
  split; [apply sqrt_pos|]. pose proof (Hm first (or_introl eq_refl)) as H0. pose proof (sqrt_pos first) as Hf0.
  destruct (error_loop_bound x0 ds Hx Hp 0 rest (Acc (sqrt first) 0 (sqrt first)) (a_max a) Hl) as (A & B & C & D).
  { cbn. lra. } { cbn. exact H0. } { intros e He. apply Hm. now right. }
  fold s in A, B, C, D. fold a in A, B, C, D. cbn [a_sum] in C, D.
  destruct (arclengths_last 0 x0 ds Hx Hp) as [L0 L1]. fold s in L0, L1.
  set (M := a_max a) in *. assert (HM : 0 <= M) by lra.
  rewrite <- (sqrt_square M HM). apply sqrt_le_1_alt.
  destruct closed.
  - assert (0 < last_ds * x0) by (apply Rmult_lt_0_compat; assumption).
    apply Rle_div_l; [lra|]. replace (last s 0 + last_ds * x0 - last s 0) with (last_ds * x0) by ring.
    assert (a_prev a * a_prev a + sqrt first * sqrt first <= 2 * (M * M)) by nra. nra.
  - specialize (L1 Hc). apply Rle_div_l; nra.
Qed.

(** Both are zero exactly when every point is on the measured boundary. *)
Theorem C41_zero_iff_all_match : forall closed x0 ds last_ds first rest, valid_mesh closed x0 ds last_ds rest ->
  (forall e, In e (first :: rest) -> 0 <= e) ->
  let '(m, l2) := boundary_errors closed x0 ds last_ds first rest in
  (m = 0 <-> forall e, In e (first :: rest) -> e = 0) /\ (l2 = 0 <-> forall e, In e (first :: rest) -> e = 0).
Proof.
  intros closed x0 ds last_ds first rest Hv Hpos.
  pose proof (C41_max_is_largest _ _ _ _ first _ Hv) as [Hm _]. pose proof (C41_l2_at_most_max _ _ _ _ first _ Hv) as HL. revert Hm HL.
  unfold boundary_errors. cbn [fst]. destruct Hv as (Hx & Hp & Hl & Hc). 
  set (s := arclengths 0 x0 ds). set (a := error_loop s rest (Acc (sqrt first) 0 (sqrt first))). intros Hm HL.
  assert (Z : (forall e, In e (first :: rest) -> e = 0) -> a_max a = 0).
  { intros Hz. assert (first = 0) by (apply Hz; now left). 
    apply (error_loop_all_zero x0 ds 0 rest (Acc (sqrt first) 0 (sqrt first)) Hl); cbn; subst first; rewrite ?sqrt_0; auto. intros e He. apply Hz. now right. }
  split; split.
  - intros M0 e He. apply sqrt_eq_0; [now apply Hpos|]. pose proof (Hm e He). pose proof (sqrt_pos e). lra.
  - exact Z.
  - intros L0. destruct (arclengths_last 0 x0 ds Hx Hp) as [La Lb]. fold s in La, Lb.
    destruct (error_loop_bound x0 ds Hx Hp 0 rest (Acc (sqrt first) 0 (sqrt first)) (a_max a) Hl) as (A & B & C & D).
    { cbn. pose proof (sqrt_pos first). pose proof (Hm first (or_introl eq_refl)). lra. } { cbn. apply Hm. now left. } { intros e He. apply Hm. now right. }
    fold s in A, B, C, D. fold a in A, B, C, D. cbn [a_sum] in C, D.
    assert (S0 : a_sum a = 0 /\ (closed = true -> sqrt first = 0)).
    { destruct closed.
      - assert (0 < last_ds * x0) by (apply Rmult_lt_0_compat; assumption).
        replace (last s 0 + last_ds * x0 - last s 0) with (last_ds * x0) in L0 by ring.
        assert (Hq : 0 <= a_prev a * a_prev a + sqrt first * sqrt first) by nra.
        apply sqrt_eq_0 in L0; [|apply Rdiv_le_0_compat; [nra|lra]].
        assert (a_sum a + 0.5 * (last_ds * x0) * (a_prev a * a_prev a + sqrt first * sqrt first) = 0).
        { apply (Rmult_eq_reg_r (/ (last s 0 + last_ds * x0))); [rewrite Rmult_0_l; exact L0|apply Rinv_neq_0_compat; lra]. }
        split; [nra|]. intros _. assert (a_prev a * a_prev a + sqrt first * sqrt first = 0) by nra. nra.
      - specialize (Lb Hc). apply sqrt_eq_0 in L0; [|apply Rdiv_le_0_compat; lra]. split; [|discriminate].
        apply (Rmult_eq_reg_r (/ (last s 0 + 0))); [rewrite Rmult_0_l; exact L0|apply Rinv_neq_0_compat; lra]. }
    destruct S0 as [S0 F0]. destruct ds as [|d ds'].
    + destruct rest; [|discriminate]. destruct closed; [|congruence]. intros e [<-|[]]. apply sqrt_eq_0; [apply Hpos; now left|auto].
    + destruct (error_loop_zero x0 (d :: ds') Hx Hp ltac:(discriminate) 0 rest (Acc (sqrt first) 0 (sqrt first)) Hl) as (_ & P0 & E0).
      { intros e He. apply Hpos. now right. } { cbn. lra. } { exact S0. }
      cbn in P0. intros e [<-|He]; [apply sqrt_eq_0; [apply Hpos; now left|exact P0]|now apply E0].
  - intros Hz. specialize (Z Hz). lra.
Qed.

Example C41_example : valid_mesh true 1 [2; 3] 4 [9; 16] /\ valid_mesh false (1 / 2) [1] 0 [4].
Proof. unfold valid_mesh. repeat split; repeat constructor; try lra; discriminate. Qed.

Print Assumptions C41_max_is_largest.
Print Assumptions C41_l2_is_mean_square.
Print Assumptions C41_l2_at_most_max.
Print Assumptions C41_zero_iff_all_match.
