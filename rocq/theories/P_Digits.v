(** Numbers written to the files of circuits and laps. *)
From Coq Require Import Reals ZArith Lia Lra List.
From Flocq Require Import Core Relative.
From Verif Require Import S_Rounded M_Rounded L_Rounded.
Import ListNotations.
Local Open Scope R_scope.

Global Instance prec17 : Prec_gt_0 17.
Proof. reflexivity. Qed.

(** A positive double is the nearest one to every number within 5e-17 of it, relative. *)
Lemma nearest_double : forall x y, is_double x -> 0 < x -> Rabs (y - x) <= 5 / 10 ^ 17 * x -> rnd y = x.
Proof.
  intros x y D P H. apply Rabs_le_inv in H. apply Rle_antisym.
  - apply round_N_le_midp; try typeclasses eauto; [exact D|]. rewrite succ_eq_pos by lra.
    pose proof (ulp_FLT_gt radix2 (-1074) 53 x) as U. rewrite Rabs_pos_eq in U by lra.
    change (FLT_exp (-1074) 53) with binary64 in U. simpl in *. lra.
  - apply round_N_ge_midp; try typeclasses eauto; [exact D|].
    set (p := pred radix2 binary64 x).
    assert (Fp : is_double p) by (apply generic_format_pred; try typeclasses eauto; exact D).
    assert (P0 : 0 <= p) by (apply pred_ge_0; try typeclasses eauto; assumption).
    assert (S : p + ulp radix2 binary64 p = x).
    { rewrite <- succ_eq_pos by assumption. apply succ_pred; try typeclasses eauto. exact D. }
    pose proof (ulp_FLT_gt radix2 (-1074) 53 p) as U. rewrite Rabs_pos_eq in U by lra.
    change (FLT_exp (-1074) 53) with binary64 in U. simpl in *. lra.
Qed.

Lemma decimal_error : forall x, Rabs (written17 x - x) <= 5 / 10 ^ 17 * Rabs x.
Proof.
  intros x. eapply Rle_trans; [apply error_le_half_ulp; typeclasses eauto|].
  pose proof (ulp_FLX_le ten 17 x) as U. simpl in *. lra.
Qed.

Lemma written_opp : forall x, written17 (- x) = - written17 x.
Proof. intros. apply round_NE_opp. Qed.

Lemma seventeen : forall x, is_double x -> read_text (written17 x) = x.
Proof.
  intros x D. unfold read_text. pose proof (decimal_error x) as E.
  destruct (Rtotal_order x 0) as [N|[Z|P]].
  - assert (X : rnd (- written17 x) = - x).
    { apply nearest_double; [apply double_opp, D|lra|].
      replace (- written17 x - - x) with (- (written17 x - x)) by ring. rewrite Rabs_Ropp.
      rewrite (Rabs_left x) in E by lra. exact E. }
    rewrite rnd_opp in X. lra.
  - subst x. unfold written17. rewrite round_0 by typeclasses eauto. apply rnd_0.
  - apply nearest_double; [exact D|lra|]. rewrite (Rabs_pos_eq x) in E by lra. exact E.
Qed.

(** ** C128 *)

(** What is written with 17 digits is read back unchanged, whatever the numbers. *)
Theorem C128_seventeen_digits : forall l, Forall is_double l ->
  map read_text (map written17 l) = l.
Proof.
  induction 1 as [|x l D F IH]; [reflexivity|]. cbn [map]. rewrite IH, seventeen by assumption. reflexivity.
Qed.

(** What goes through std::to_string moves by a millionth at most. *)
Theorem C128_to_string_close : forall x, is_double x -> Rabs (read_text (to_string x) - x) <= / 10 ^ 6.
Proof.
  intros x D. unfold read_text. set (y := to_string x).
  assert (E : Rabs (y - x) <= / 2 * / 10 ^ 6).
  { eapply Rle_trans; [apply error_le_half_ulp; typeclasses eauto|]. rewrite ulp_FIX. simpl. lra. }
  destruct (round_N_pt radix2 binary64 (fun t => negb (Z.even t)) y) as [_ N].
  specialize (N x D). fold (rnd y) in N. rewrite (Rabs_minus_sym x y) in N.
  replace (rnd y - x) with ((rnd y - y) + (y - x)) by ring.
  eapply Rle_trans; [apply Rabs_triang|]. lra.
Qed.

(** A number that was given with at most six decimals and is below 10^9 survives. *)
Theorem C128_six_decimals_partial : forall k x, (Z.abs k <= 10 ^ 15)%Z -> x = rnd (IZR k / 10 ^ 6) ->
  read_text (to_string x) = x.
Proof.
  intros k x K E. unfold read_text.
  assert (T : to_string x = IZR k / 10 ^ 6).
  { assert (Err : Rabs (x - IZR k / 10 ^ 6) < / 4 * / 10 ^ 6).
    { rewrite E. eapply Rle_lt_trans; [apply error_le_half_ulp; typeclasses eauto|].
      assert (U : ulp radix2 binary64 (IZR k / 10 ^ 6) <= ulp radix2 binary64 (bpow radix2 30)).
      { apply ulp_le; try typeclasses eauto. rewrite (Rabs_pos_eq (bpow radix2 30)) by apply bpow_ge_0.
        unfold Rdiv. rewrite Rabs_mult, <- abs_IZR, (Rabs_pos_eq (/ 10 ^ 6)) by (simpl; lra).
        apply IZR_le in K. replace (IZR (10 ^ 15)) with (10 ^ 15) in K by (simpl; lra). simpl in *. lra. }
      rewrite ulp_bpow in U. change (binary64 (30 + 1)) with (-22)%Z in U. simpl in *. lra. }
    unfold to_string, round, scaled_mantissa, cexp, FIX_exp, F2R. cbn [Fnum Fexp].
    rewrite (Znearest_imp _ _ k); [simpl; lra|].
    replace (x * bpow ten (- -6) - IZR k) with ((x - IZR k / 10 ^ 6) * 10 ^ 6) by (simpl; field).
    rewrite Rabs_mult, (Rabs_pos_eq (10 ^ 6)) by (simpl; lra). simpl in *. lra. }
  rewrite T. symmetry. exact E.
Qed.

Example C128_case : is_double (/ 2 ^ 30) /\ is_double (- (1000 / 3 - 1000 / 3)) /\ is_double (rnd (1 / 3)) /\
  rnd (IZR 1500000 / 10 ^ 6) = 3 / 2.
Proof.
  split; [apply (double_of 1 (-30)); [simpl; lra|reflexivity|lia]|]. split.
  { replace (- (1000 / 3 - 1000 / 3)) with 0 by ring. apply double_0. }
  split; [apply rnd_double|]. rewrite rnd_id; [simpl; lra|].
  apply (double_of 3 (-1)); [simpl; lra|reflexivity|lia].
Qed.

(** A positive number below half a millionth is read back as zero. *)
Theorem C128_to_string_refuted : exists x, is_double x /\ 0 < x /\ read_text (to_string x) = 0.
Proof.
  exists (/ 2 ^ 30). split; [apply C128_case|]. split; [simpl; lra|]. unfold read_text.
  assert (T : to_string (/ 2 ^ 30) = 0).
  { unfold to_string, round, scaled_mantissa, cexp, FIX_exp, F2R. cbn [Fnum Fexp].
    rewrite (Znearest_imp _ _ 0); [simpl; lra|]. apply Rabs_lt. simpl. lra. }
  rewrite T. apply rnd_0.
Qed.

Print Assumptions C128_seventeen_digits.
Print Assumptions C128_to_string_close.
Print Assumptions C128_six_decimals_partial.
Print Assumptions C128_to_string_refuted.
