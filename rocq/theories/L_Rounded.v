(** Lemmas on operations rounded to double precision. *)
From Coq Require Import Reals ZArith Lia Lra List Arith Sorted.
From Flocq Require Import Core Relative Plus_error.
From Verif Require Import S_Rounded M_Rounded.
Import ListNotations.
Local Open Scope R_scope.

Global Instance prec64 : Prec_gt_0 53.
Proof. reflexivity. Qed.
Global Instance valid64 : Valid_exp binary64.
Proof. unfold binary64. apply FLT_exp_valid. reflexivity. Qed.
Global Instance monotone64 : Monotone_exp binary64.
Proof. unfold binary64. apply FLT_exp_monotone. Qed.

Lemma rnd_le : forall x y, x <= y -> rnd x <= rnd y.
Proof. intros. apply round_le; try typeclasses eauto. assumption. Qed.
Lemma rnd_id : forall x, double x -> rnd x = x.
Proof. intros. apply round_generic; try typeclasses eauto. assumption. Qed.
Lemma rnd_double : forall x, double (rnd x).
Proof. intros. apply generic_format_round; typeclasses eauto. Qed.
Lemma rnd_0 : rnd 0 = 0.
Proof. apply round_0; typeclasses eauto. Qed.
Lemma rnd_opp : forall x, rnd (- x) = - rnd x.
Proof. intros. apply round_NE_opp. Qed.
Lemma double_0 : double 0.
Proof. apply generic_format_0. Qed.
Lemma double_1 : double 1.
Proof. change 1 with (bpow radix2 0). apply generic_format_bpow. discriminate. Qed.
Lemma double_opp : forall x, double x -> double (- x).
Proof. intros. apply generic_format_opp. assumption. Qed.
Lemma rnd_ge_0 : forall x, 0 <= x -> 0 <= rnd x.
Proof. intros. rewrite <- rnd_0. apply rnd_le. assumption. Qed.

(** The fraction of the interval is never above one and never negative. *)
Lemma ratio_bounds : forall a b, double a -> double b -> 0 <= a <= b -> 0 <= fdiv a b <= 1.
Proof.
  intros a b Da Db [H0 H1]. unfold fdiv.
  destruct (Req_dec b 0) as [->|Hb].
  { unfold Rdiv. rewrite Rinv_0, Rmult_0_r, rnd_0. lra. }
  assert (0 < b) by lra. split.
  - apply rnd_ge_0. apply Rmult_le_pos; [assumption|]. left. apply Rinv_0_lt_compat. assumption.
  - rewrite <- (rnd_id 1 double_1). apply rnd_le. apply (Rmult_le_reg_r b); [assumption|].
    unfold Rdiv. rewrite Rmult_assoc, Rinv_l by lra. lra.
Qed.

Lemma below_one : forall x, rnd x < 1 -> rnd x <= 1 - bpow radix2 (-53).
Proof.
  intros x H.
  assert (E : pred radix2 binary64 1 = 1 - bpow radix2 (-53)).
  { change 1 with (bpow radix2 0) at 1. rewrite pred_bpow. reflexivity. }
  rewrite <- E. apply pred_ge_gt; try typeclasses eauto; [apply rnd_double|apply double_1|assumption].
Qed.

Lemma ratio_below_one : forall a b, double a -> double b -> 0 <= a < b -> fdiv a b < 1.
Proof.
  intros a b Da Db [H0 H1]. unfold fdiv.
  assert (S : a + ulp radix2 binary64 a <= b).
  { rewrite <- succ_eq_pos by assumption. apply succ_le_lt; try typeclasses eauto; assumption. }
  assert (U : a * bpow radix2 (-53) <= ulp radix2 binary64 a).
  { rewrite <- (Rabs_pos_eq a) at 1 by assumption. left. apply (ulp_FLT_gt radix2 (-1074) 53). }
  assert (P : rnd (a / b) <= 1 - bpow radix2 (-53)).
  { assert (E : pred radix2 binary64 1 = 1 - bpow radix2 (-53)).
    { change 1 with (bpow radix2 0) at 1. rewrite pred_bpow. reflexivity. }
    assert (D : double (1 - bpow radix2 (-53))).
    { rewrite <- E. apply generic_format_pred; try typeclasses eauto. apply double_1. }
    apply round_N_le_midp; try typeclasses eauto; [exact D|].
    rewrite <- E at 2. rewrite succ_pred by (try typeclasses eauto; apply double_1).
    set (e := bpow radix2 (-53)) in *.
    assert (Pe : 0 < e < 1/2) by (unfold e; simpl; lra).
    assert (Pb : 0 < b) by lra.
    apply (Rmult_lt_reg_r b); [assumption|].
    unfold Rdiv at 1. rewrite Rmult_assoc, Rinv_l, Rmult_1_r by lra.
    assert (A : a * (1 + e) <= b) by lra.
    assert (B : b * 1 < b * ((1 - e / 2) * (1 + e))).
    { apply Rmult_lt_compat_l; [assumption|]. nra. }
    apply (Rmult_lt_reg_r (1 + e)); [lra|]. nra. }
  assert (0 < bpow radix2 (-53)) by apply bpow_gt_0. lra.
Qed.

(** A step smaller than the whole difference does not take the value beyond the other one. *)
Lemma part_of_difference : forall vl vr xi, double vl -> double vr -> vl <= vr ->
  0 <= xi <= 1 - bpow radix2 (-53) -> fmul xi (fsub vr vl) <= vr - vl.
Proof.
  intros vl vr xi Dl Dr L [X0 X1]. unfold fmul, fsub.
  assert (Pe : 0 < bpow radix2 (-53)) by apply bpow_gt_0.
  set (D := vr - vl) in *. assert (D0 : 0 <= D) by (unfold D; lra).
  pose proof (rnd_ge_0 D D0) as R0.
  assert (X2 : xi * rnd D <= rnd D).
  { rewrite <- (Rmult_1_l (rnd D)) at 2. apply Rmult_le_compat_r; lra. }
  assert (X3 : rnd (xi * rnd D) <= rnd D).
  { rewrite <- (rnd_id (rnd D)) at 2 by apply rnd_double. apply rnd_le. assumption. }
  destruct (generic_format_EM radix2 binary64 D) as [F|F].
  { rewrite (rnd_id D F) in *. assumption. }
  assert (N : bpow radix2 (53 + -1074) < D).
  { destruct (Rlt_le_dec (bpow radix2 (53 + -1074)) D) as [H|H]; [exact H|exfalso].
    apply F. unfold D, Rminus, binary64. apply FLT_format_plus_small; try assumption; [reflexivity| |].
    - apply double_opp. assumption.
    - change (Rabs D <= bpow radix2 (53 + -1074)). rewrite Rabs_pos_eq; assumption. }
  set (u := round radix2 binary64 Zfloor D).
  destruct (round_DN_pt radix2 binary64 D) as [Fu [Lu Mu]]. fold u in Fu, Lu, Mu.
  assert (Nu : bpow radix2 (53 + -1074) <= u).
  { apply Mu; [|lra]. apply generic_format_bpow. discriminate. }
  destruct (round_DN_or_UP radix2 binary64 ZnearestE D) as [E|E]; fold (rnd D) in E.
  { fold u in E. rewrite E in *. lra. }
  assert (Su : succ radix2 binary64 u = rnd D).
  { rewrite E. apply succ_DN_eq_UP; try typeclasses eauto. exact F. }
  apply Rle_trans with u; [|exact Lu].
  apply round_N_le_midp; try typeclasses eauto; [exact Fu|].
  rewrite Su.
  assert (Pu : 0 < u) by (pose proof (bpow_gt_0 radix2 (53 + -1074)); lra).
  rewrite succ_eq_pos in Su by lra.
  assert (U : ulp radix2 binary64 u <= u * bpow radix2 (1 - 53)).
  { rewrite <- (Rabs_pos_eq u) at 2 by lra. apply ulp_FLT_le.
    rewrite Rabs_pos_eq by lra. apply Rle_trans with (2 := Nu). apply bpow_le. lia. }
  assert (H2 : bpow radix2 (1 - 53) = 2 * bpow radix2 (-53)).
  { change (1 - 53)%Z with (1 + -53)%Z. rewrite bpow_plus. reflexivity. }
  rewrite H2 in U.
  assert (Pp : 0 < ulp radix2 binary64 u).
  { rewrite ulp_neq_0 by lra. apply bpow_gt_0. }
  rewrite <- Su in *.
  set (e := bpow radix2 (-53)) in *. set (w := ulp radix2 binary64 u) in *.
  assert (Y : xi * (u + w) <= (1 - e) * (u + w)) by (apply Rmult_le_compat_r; lra).
  assert (Z : 0 < e * w) by (apply Rmult_lt_0_compat; lra).
  lra.
Qed.

Lemma Rabs_le_inv : forall x e, Rabs x <= e -> - e <= x <= e.
Proof. intros x e H. pose proof (Rle_abs x). pose proof (Rle_abs (- x)) as H1. rewrite Rabs_Ropp in H1. lra. Qed.

(** A number rounds to [n * 2^(e-53)] when it is nearer to it than half a unit. *)
Lemma rnd_at : forall x e n, (-1021 <= e)%Z -> bpow radix2 (e - 1) <= Rabs x < bpow radix2 e ->
  Rabs (x * bpow radix2 (53 - e) - IZR n) < / 2 -> rnd x = IZR n * bpow radix2 (e - 53).
Proof.
  intros x e n He Hm Hn.
  assert (C : cexp radix2 binary64 x = (e - 53)%Z).
  { unfold cexp. rewrite (mag_unique radix2 x e Hm). unfold binary64, FLT_exp. lia. }
  unfold rnd, round, scaled_mantissa. rewrite C. unfold F2R. cbn [Fnum Fexp]. f_equal. f_equal.
  apply Znearest_imp. replace (- (e - 53))%Z with (53 - e)%Z by lia. exact Hn.
Qed.
(** Half way between two numbers, to the even one. *)
Lemma rnd_tie : forall x e n, (-1021 <= e)%Z -> bpow radix2 (e - 1) <= Rabs x < bpow radix2 e ->
  x * bpow radix2 (53 - e) = IZR n + / 2 ->
  rnd x = IZR (if Z.even n then n else n + 1) * bpow radix2 (e - 53).
Proof.
  intros x e n He Hm Hn.
  assert (C : cexp radix2 binary64 x = (e - 53)%Z).
  { unfold cexp. rewrite (mag_unique radix2 x e Hm). unfold binary64, FLT_exp. lia. }
  unfold rnd, round, scaled_mantissa. rewrite C. unfold F2R. cbn [Fnum Fexp]. f_equal. f_equal.
  replace (- (e - 53))%Z with (53 - e)%Z by lia. rewrite Hn.
  assert (F : Zfloor (IZR n + / 2) = n) by (apply Zfloor_imp; rewrite plus_IZR; lra).
  assert (G : Zceil (IZR n + / 2) = (n + 1)%Z).
  { apply Zceil_imp. rewrite minus_IZR, plus_IZR. lra. }
  unfold Znearest. rewrite F, G. replace (IZR n + / 2 - IZR n) with (/ 2) by ring.
  rewrite Rcompare_Eq by reflexivity. destruct (Z.even n); reflexivity.
Qed.

Lemma double_of : forall n e x, x = IZR n * bpow radix2 e -> (Z.abs n < 2 ^ 53)%Z -> (-1074 <= e)%Z -> is_double x.
Proof.
  intros n e x -> Hn He. apply generic_format_FLT. exists (Float radix2 n e); [reflexivity|exact Hn|exact He].
Qed.
