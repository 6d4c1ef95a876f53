(** Lemmas on tyres. *)
From Coq Require Import Reals Machin Lra Lia.
From Coquelicot Require Import Coquelicot.
From Verif Require Import M_Vec M_Tire.
Local Open Scope R_scope.

(** ** Sine and arctangent *)
Lemma sin_bound x : -1 <= sin x <= 1.
Proof. apply SIN_bound. Qed.
Lemma sin_sq x : sin x * sin x <= 1.
Proof. pose proof (sin2_cos2 x) as H. unfold Rsqr in H. pose proof (Rle_0_sqr (cos x)) as Q. unfold Rsqr in Q. lra. Qed.
Lemma cos_sq x : cos x * cos x <= 1.
Proof. pose proof (sin2_cos2 x) as H. unfold Rsqr in H. pose proof (Rle_0_sqr (sin x)) as Q. unfold Rsqr in Q. lra. Qed.

Lemma atan_nonneg x : 0 <= x -> 0 <= atan x.
Proof. intros [H|<-]; [left; rewrite <- atan_0; now apply atan_increasing | rewrite atan_0; lra]. Qed.
Lemma atan_pos x : 0 < x -> 0 < atan x.
Proof. intros H. rewrite <- atan_0. now apply atan_increasing. Qed.
Lemma atan_le x y : x <= y -> atan x <= atan y.
Proof. intros [H| ->]; [left; now apply atan_increasing | lra]. Qed.

(** The argument stays within half a turn when the factor is at most two. *)
Lemma sin_atan_nonneg C x : 0 <= C <= 2 -> 0 <= x -> 0 <= sin (C * atan x).
Proof.
  intros HC Hx. pose proof (atan_bound x) as [_ B]. pose proof (atan_nonneg x Hx) as A.
  apply sin_ge_0; [now apply Rmult_le_pos|].
  apply Rle_trans with (2 * atan x); [apply Rmult_le_compat_r; lra | lra].
Qed.
Lemma sin_atan_pos C x : 0 < C <= 2 -> 0 < x -> 0 < sin (C * atan x).
Proof.
  intros HC Hx. pose proof (atan_bound x) as [_ B]. pose proof (atan_pos x Hx) as A.
  apply sin_gt_0; [now apply Rmult_lt_0_compat|].
  apply Rle_lt_trans with (2 * atan x); [apply Rmult_le_compat_r; lra | lra].
Qed.

Lemma cos_sin_atan t : cos (atan t) = / sqrt (1 + t * t) /\ sin (atan t) = t / sqrt (1 + t * t).
Proof.
  pose proof (atan_bound t) as [A B]. pose proof (tan_atan t) as T. unfold tan in T.
  assert (C : 0 < cos (atan t)) by (apply cos_gt_0; lra).
  assert (S1 : sin (atan t) = t * cos (atan t)) by (rewrite <- T at 2; field; lra).
  pose proof (sin2_cos2 (atan t)) as P. unfold Rsqr in P. rewrite S1 in P.
  assert (E : cos (atan t) * cos (atan t) * (1 + t * t) = 1) by lra.
  assert (Q : 0 < 1 + t * t) by nra.
  assert (D : cos (atan t) = / sqrt (1 + t * t)).
  { assert (Hq : 0 < sqrt (1 + t * t)) by now apply sqrt_lt_R0.
    apply Rmult_eq_reg_r with (sqrt (1 + t * t)); [|lra]. rewrite Rinv_l by lra.
    assert (H0 : sqrt (1 + t * t) * sqrt (1 + t * t) = 1 + t * t) by (apply sqrt_sqrt; lra).
    set (c := cos (atan t)) in *. set (q := sqrt (1 + t * t)) in *.
    assert (Z : (c * q - 1) * (c * q + 1) = 0) by (transitivity (c * c * (q * q) - 1); [ring | rewrite H0; lra]).
    assert (0 < c * q) by now apply Rmult_lt_0_compat.
    apply Rmult_integral in Z. destruct Z; lra. }
  split; [exact D|]. rewrite S1, D. reflexivity.
Qed.

(** x / sqrt (1 + x^2) < atan x <= x for positive x. *)
Lemma atan_lower x : 0 < x -> x / sqrt (1 + x * x) < atan x.
Proof.
  intros H. destruct (cos_sin_atan x) as [_ S]. rewrite <- S. apply sin_lt_x. now apply atan_pos.
Qed.
Lemma atan_upper x : 0 <= x -> atan x <= x.
Proof.
  intros [H|<-]; [|rewrite atan_0; lra].
  destruct (MVT_gen atan 0 x (fun c => / (1 + c²))) as (c & _ & E).
  - intros c _. apply is_derive_Reals. pose proof (derivable_pt_lim_atan c) as D.
    replace (1 + c²) with (1 + c ^ 2) by (unfold Rsqr; ring). exact D.
  - intros c _. apply derivable_continuous_pt. apply derivable_pt_atan.
  - rewrite atan_0 in E. 
    assert (Q : 0 < / (1 + c²) <= 1).
    { split; [apply Rinv_0_lt_compat; pose proof (Rle_0_sqr c); lra|].
      rewrite <- Rinv_1 at 2. apply Rinv_le_contravar; [lra | pose proof (Rle_0_sqr c); lra]. }
    nra.
Qed.

Lemma sqrt_le_of x y : 0 <= y -> x <= y * y -> sqrt x <= y.
Proof. intros Hy H. rewrite <- (sqrt_square y Hy). now apply sqrt_le_1_alt. Qed.

(** atan u = PI/4 + atan ((u-1)/(u+1)) for positive u. *)
Lemma atan_quarter u : 0 < u -> atan u = PI / 4 + atan ((u - 1) / (u + 1)).
Proof.
  intros H. pose proof (atan_bound u) as B1. pose proof (atan_pos u H) as P. pose proof PI_RGT_0.
  pose proof (atan_sub_correct u 1) as Q. unfold atan_sub in Q. rewrite atan_1 in Q.
  replace (1 + u * 1) with (u + 1) in Q by ring. apply Q; [lra | lra |]. apply atan_bound.
Qed.

(** ** The simple model *)
Lemma rho_pos m k l Fz : 0 < combined_slip m k l Fz.
Proof.
  unfold combined_slip. apply sqrt_lt_R0.
  pose proof (Rle_0_sqr (k / maximum_kappa m Fz)) as A. pose proof (Rle_0_sqr (l / maximum_lambda m Fz)) as B. unfold Rsqr in A, B.
  assert (0 < 1 / 10 ^ 12) by (apply Rdiv_lt_0_compat; [lra | apply pow_lt; lra]). lra.
Qed.
Lemma rho_sq m k l Fz : (k / maximum_kappa m Fz) * (k / maximum_kappa m Fz) + (l / maximum_lambda m Fz) * (l / maximum_lambda m Fz)
  <= combined_slip m k l Fz * combined_slip m k l Fz.
Proof.
  unfold combined_slip. 
  pose proof (Rle_0_sqr (k / maximum_kappa m Fz)) as A. pose proof (Rle_0_sqr (l / maximum_lambda m Fz)) as B. unfold Rsqr in A, B.
  assert (0 < 1 / 10 ^ 12) by (apply Rdiv_lt_0_compat; [lra | apply pow_lt; lra]).
  rewrite sqrt_sqrt by lra. lra.
Qed.
Lemma S_pos Q : 0 < Q -> 0 < PI / (2 * atan Q).
Proof. intros H. pose proof PI_RGT_0. pose proof (atan_pos Q H). apply Rdiv_lt_0_compat; lra. Qed.

Lemma mu_at_least sp : smooth_positive_part sp -> forall m Fz, 1 <= mu_x_max sp m Fz /\ 1 <= mu_y_max sp m Fz.
Proof.
  intros Hs m Fz. unfold mu_x_max, mu_y_max, mu_min.
  assert (E : 0 <= 1 / 10 ^ 5) by (left; apply Rdiv_lt_0_compat; [lra | apply pow_lt; lra]).
  split; match goal with |- 1 <= sp ?a ?b + 1 => pose proof (Hs a b E); lra end.
Qed.

(** ** The standard model *)
Definition shape (E x : R) : R := x - E * (x - atan x).
Lemma shape_nonneg E x : E <= 1 -> 0 <= x -> 0 <= shape E x.
Proof.
  intros HE Hx. unfold shape. pose proof (atan_upper x Hx). pose proof (atan_nonneg x Hx). nra.
Qed.
Lemma shape_odd E x : shape E (- x) = - shape E x.
Proof. unfold shape. rewrite atan_opp. ring. Qed.
Lemma magic_shape D C B E s : magic D C B E s = D * sin (C * atan (shape E (B * s))).
Proof. reflexivity. Qed.
Lemma magic_odd D C B E s : magic D C B E (- s) = - magic D C B E s.
Proof.
  rewrite !magic_shape. replace (B * - s) with (- (B * s)) by ring. rewrite shape_odd, atan_opp.
  replace (C * - atan (shape E (B * s))) with (- (C * atan (shape E (B * s)))) by ring. rewrite sin_neg. ring.
Qed.
Lemma magic_zero D C B E : magic D C B E 0 = 0.
Proof. rewrite magic_shape. unfold shape. rewrite Rmult_0_r, atan_0, Rminus_0_r, Rmult_0_r, Rminus_0_r, atan_0, Rmult_0_r, sin_0. ring. Qed.
Lemma magic_sign D C B E s : 0 <= D -> 0 <= C <= 2 -> 0 <= B -> E <= 1 -> 0 <= magic D C B E s * s.
Proof.
  intros HD HC HB HE.
  assert (P : forall t, 0 <= t -> 0 <= magic D C B E t).
  { intros t Ht. rewrite magic_shape. apply Rmult_le_pos; [exact HD|]. apply sin_atan_nonneg; [exact HC|].
    apply shape_nonneg; [exact HE | now apply Rmult_le_pos]. }
  destruct (Rle_dec 0 s) as [H|H]; [apply Rmult_le_pos; [now apply P | exact H]|].
  replace s with (- - s) at 1 by ring. rewrite magic_odd.
  pose proof (P (- s) ltac:(lra)). nra.
Qed.
Lemma magic_bound D C B E s : Rabs (magic D C B E s) <= Rabs D.
Proof.
  rewrite magic_shape, Rabs_mult. pose proof (SIN_bound (C * atan (shape E (B * s)))) as H.
  assert (Rabs (sin (C * atan (shape E (B * s)))) <= 1) by (apply Rabs_le; lra).
  pose proof (Rabs_pos D). nra.
Qed.
Lemma cos_atan_nonneg C x : 0 <= C <= 1 -> 0 <= cos (C * atan x).
Proof.
  intros HC. pose proof (atan_bound x) as [A B].
  apply cos_ge_0; nra.
Qed.

Lemma div_mul x y : y <> 0 -> x / y * y = x.
Proof. intros; field; assumption. Qed.
