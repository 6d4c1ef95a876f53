(** The mesh of the circuit preprocessor in double precision. *)
From Coq Require Import Reals ZArith Lia Lra List Arith Sorted.
From Flocq Require Import Core Relative Plus_error.
From Verif Require Import S_Rounded M_Rounded L_Rounded.
Import ListNotations.
Local Open Scope R_scope.

Section Loop.
Context (f : R -> R) (r s_end d : R).
Context (Hf : forall x, is_double (f x) /\ d <= f x) (Hr : 1 <= r) (Hd : 0 < d).
Context (He : is_double s_end) (H1 : 1 <= s_end) (Hde : s_end <= d * 2 ^ 48).

Lemma unit_of_the_end : ulp radix2 binary64 s_end <= d.
Proof.
  assert (U : ulp radix2 binary64 s_end <= Rabs s_end * bpow radix2 (1 - 53)).
  { apply ulp_FLT_le. rewrite Rabs_pos_eq by lra. apply Rle_trans with (bpow radix2 0); [apply bpow_le; lia|simpl; lra]. }
  rewrite Rabs_pos_eq in U by lra. simpl in U. simpl in Hde. lra.
Qed.

Lemma clamp_size : forall prev x, is_double prev -> d <= prev ->
  is_double (clamp_rounded r prev (f x)) /\ d <= clamp_rounded r prev (f x).
Proof.
  intros prev x Dp Hp. unfold clamp_rounded. destruct (Hf x) as [Df Hfx].
  destruct (Rlt_dec (fmul r prev) (f x)) as [H|H].
  - split; [apply rnd_double|]. unfold fmul. apply Rle_trans with prev; [exact Hp|].
    rewrite <- (rnd_id prev Dp) at 1. apply rnd_le. rewrite <- (Rmult_1_l prev) at 1. apply Rmult_le_compat_r; lra.
  - destruct (Rlt_dec (f x) (fdiv prev r)) as [H'|H']; [|split; assumption].
    split; [apply rnd_double|lra].
Qed.

Lemma advance : forall s ds, is_double s -> 0 <= s < s_end -> d <= ds ->
  s_end <= fadd s ds \/ s + ds / 2 <= fadd s ds < s_end.
Proof.
  intros s ds Ds [S0 S1] H. unfold fadd. destruct (Rle_dec s_end (rnd (s + ds))) as [E|E]; [left; exact E|right].
  split; [|lra].
  assert (L : s + ds < s_end).
  { destruct (Rlt_dec (s + ds) s_end) as [L|L]; [exact L|exfalso]. apply E.
    rewrite <- (rnd_id s_end He) at 1. apply rnd_le. lra. }
  pose proof (error_le_half_ulp radix2 binary64 (fun t => negb (Z.even t)) (s + ds)) as X.
  fold (rnd (s + ds)) in X.
  assert (U : ulp radix2 binary64 (s + ds) <= ulp radix2 binary64 s_end).
  { apply ulp_le; try typeclasses eauto. rewrite !Rabs_pos_eq; lra. }
  pose proof unit_of_the_end. apply Rabs_le_inv in X. lra.
Qed.

(** The mesh so far, last point first: it starts at zero, and below the end it advances by half the smallest
    size at least. *)
Inductive growing : list R -> Prop :=
| start : growing [0]
| grow : forall a b l, growing (b :: l) -> b < s_end -> is_double a -> b < a -> (s_end <= a \/ b + d / 2 <= a) -> growing (a :: b :: l).

Lemma growing_nonneg : forall a l, growing (a :: l) -> is_double a /\ 0 <= a.
Proof.
  intros a l G. remember (a :: l) as m eqn:E. revert a l E. induction G as [|x b t G IH Hb Dx Hx Hg]; intros a l E; injection E as <- <-.
  - split; [apply double_0|lra].
  - split; [exact Dx|]. destruct (IH b t eq_refl). lra.
Qed.

Lemma loop_step : forall back l prev, growing (back :: l) -> back < s_end -> is_double prev -> d <= prev ->
  let ds := clamp_rounded r prev (f back) in
  growing (fadd back ds :: back :: l) /\ is_double ds /\ d <= ds /\ (s_end <= fadd back ds \/ back + d / 2 <= fadd back ds).
Proof.
  intros back l prev G B Dp Hp ds. destruct (clamp_size prev back Dp Hp) as [Dd Hds]. fold ds in Dd, Hds.
  destruct (growing_nonneg _ _ G) as [Db Nb].
  pose proof (advance back ds Db (conj Nb B) Hds) as A.
  assert (X : s_end <= fadd back ds \/ back + d / 2 <= fadd back ds) by lra.
  repeat split; try assumption. constructor; try assumption; [apply rnd_double|lra].
Qed.

Lemma loop_ends : forall n mesh prev, growing mesh -> is_double prev -> d <= prev ->
  s_end - hd 0 mesh <= INR n * (d / 2) -> exists m, loop_rounded n f r s_end mesh prev = Some m.
Proof.
  induction n as [|n IH]; intros mesh prev G Dp Hp H; destruct mesh as [|back l]; try (inversion G; fail).
  - cbn [loop_rounded hd INR] in *. destruct (Rlt_dec back s_end); [lra|eexists; reflexivity].
  - cbn [loop_rounded hd] in *. destruct (Rlt_dec back s_end) as [B|B]; [|eexists; reflexivity].
    destruct (loop_step back l prev G B Dp Hp) as (G' & Dd & Hds & A).
    cbv zeta. rewrite S_INR in H. pose proof (pos_INR n).
    assert (0 <= INR n * (d / 2)) by (apply Rmult_le_pos; lra).
    apply IH; try assumption. cbn [hd]. lra.
Qed.

Lemma loop_result : forall n mesh prev m, growing mesh -> is_double prev -> d <= prev ->
  loop_rounded n f r s_end mesh prev = Some m -> growing m /\ s_end <= hd 0 m.
Proof.
  induction n as [|n IH]; intros mesh prev m G Dp Hp E; destruct mesh as [|back l]; try (inversion G; fail);
    cbn [loop_rounded] in E; destruct (Rlt_dec back s_end) as [B|B];
    try discriminate E; try (injection E as <-; split; [exact G|cbn [hd]; lra]).
  destruct (loop_step back l prev G B Dp Hp) as (G' & Dd & Hds & _). eapply IH; eassumption.
Qed.

Lemma growing_descends : forall m, growing m -> StronglySorted (fun a b => b < a) m /\ Forall is_double m /\ nth_error (rev m) 0 = Some 0.
Proof.
  induction 1 as [|a b l G (S & D & N) Hb Da Hab Hg].
  - repeat split; repeat constructor. apply double_0.
  - repeat split.
    + constructor; [exact S|]. constructor; [exact Hab|]. inversion S as [|x y Sl Fl]; subst.
      eapply Forall_impl; [|exact Fl]. cbn. intros x Hx. lra.
    + constructor; assumption.
    + change (rev (a :: b :: l)) with (rev (b :: l) ++ [a]). rewrite nth_error_app1; [exact N|].
      rewrite rev_length. cbn. lia.
Qed.
End Loop.

(** ** The last six points *)
Lemma relative : forall x, / 2 ^ 60 <= Rabs x -> Rabs (rnd x - x) <= / 2 ^ 53 * Rabs x.
Proof.
  intros x H. replace (/ 2 ^ 53) with (/ 2 * bpow radix2 (- (53) + 1)) by (simpl; lra).
  apply relative_error_N_FLT; [reflexivity|]. apply Rle_trans with (2 := H).
  apply Rle_trans with (bpow radix2 (-60)); [apply bpow_le; lia|simpl; lra].
Qed.

Lemma six_points : forall s_end base i, 1 <= s_end -> 0 <= base -> s_end * / 2 ^ 47 <= s_end - base ->
  In i [1; 2; 3; 4; 5; 6] ->
  Rabs (squashed s_end base i - (base + i * ((s_end - base) / 6))) <= 5 / 2 ^ 53 * s_end.
Proof.
  intros s_end base i H1 Hb Hd Hi. unfold squashed, fadd, fmul, fdiv, fsub.
  set (D := s_end - base) in *.
  assert (Pu : / 2 ^ 60 <= s_end * / 2 ^ 47) by (simpl; lra).
  assert (R1 : Rabs (rnd D - D) <= / 2 ^ 53 * D).
  { rewrite <- (Rabs_pos_eq D) at 3 by (simpl in *; lra). apply relative. rewrite Rabs_pos_eq; simpl in *; lra. }
  set (y := rnd D) in *. apply Rabs_le_inv in R1.
  assert (Py : / 2 ^ 57 <= y) by (simpl in *; lra).
  assert (R2 : Rabs (rnd (y / 6) - y / 6) <= / 2 ^ 53 * (y / 6)).
  { rewrite <- (Rabs_pos_eq (y / 6)) at 3 by (simpl in *; lra). apply relative. rewrite Rabs_pos_eq; simpl in *; lra. }
  set (h := rnd (y / 6)) in *. apply Rabs_le_inv in R2.
  assert (Ph : / 2 ^ 60 <= h) by (simpl in *; lra).
  assert (R3 : Rabs (rnd (i * h) - i * h) <= / 2 ^ 53 * (i * h)).
  { assert (X : h <= i * h) by (destruct Hi as [<-|[<-|[<-|[<-|[<-|[<-|[]]]]]]]; simpl in Ph; lra).
    rewrite <- (Rabs_pos_eq (i * h)) at 3 by (simpl in *; lra). apply relative. rewrite Rabs_pos_eq; simpl in *; lra. }
  set (t := rnd (i * h)) in *. apply Rabs_le_inv in R3.
  assert (Pt : / 2 ^ 60 <= base + t).
  { assert (X : h <= t * 2) by (destruct Hi as [<-|[<-|[<-|[<-|[<-|[<-|[]]]]]]]; simpl in *; lra).
    assert (Y : / 2 ^ 59 <= h) by (simpl in *; lra). simpl in *. lra. }
  assert (R4 : Rabs (rnd (base + t) - (base + t)) <= / 2 ^ 53 * (base + t)).
  { rewrite <- (Rabs_pos_eq (base + t)) at 3 by (simpl in *; lra). apply relative. rewrite Rabs_pos_eq; simpl in *; lra. }
  apply Rabs_le_inv in R4. set (x := rnd (base + t)) in *.
  assert (De : D = s_end - base) by reflexivity. clearbody x t h y D.
  apply Rabs_le. destruct Hi as [<-|[<-|[<-|[<-|[<-|[<-|[]]]]]]]; simpl in *; lra.
Qed.

Lemma sorted_app : forall (l : list R) a, StronglySorted Rlt l -> Forall (fun x => x < a) l -> StronglySorted Rlt (l ++ [a]).
Proof.
  induction l as [|b l IH]; intros a S F; cbn [app]; [repeat constructor|].
  inversion S; subst. inversion F; subst. constructor; [apply IH; assumption|].
  apply Forall_app. split; [assumption|]. constructor; [assumption|constructor].
Qed.
Lemma sorted_rev : forall l, StronglySorted (fun a b => b < a) l -> StronglySorted Rlt (rev l).
Proof.
  induction 1 as [|a l S IH F]; [constructor|]. cbn [rev]. apply sorted_app; [exact IH|].
  apply Forall_forall. intros x Hx. rewrite Forall_forall in F. apply F. rewrite in_rev. exact Hx.
Qed.

Lemma descending_cons : forall a b l, StronglySorted (fun a b => b < a) (b :: l) -> b < a -> StronglySorted (fun a b => b < a) (a :: b :: l).
Proof.
  intros a b l S H. constructor; [exact S|]. constructor; [exact H|]. inversion S as [|x y Sl Fl]; subst.
  eapply Forall_impl; [|exact Fl]. cbn. intros x Hx. lra.
Qed.

(** The requested sizes: doubles, none below [d]; the ratio of adjacent sizes is at least one; the length of
    the curve is a double of at least one metre and the smallest size is not below its 2^48th part. *)
Record reasonable (f : R -> R) (ds0 r s_end d : R) : Prop := {
  sizes     : forall x, is_double (f x) /\ d <= f x;
  first     : is_double ds0 /\ d <= ds0;
  ratio     : 1 <= r;
  curve     : is_double s_end /\ 1 <= s_end;
  smallest  : 0 < d /\ s_end <= d * 2 ^ 48 }.

Lemma start_growing : forall (breakpoints : bool) f ds0 r s_end d, reasonable f ds0 r s_end d ->
  growing s_end d (if breakpoints then [ds0; 0] else [0]).
Proof.
  intros b f ds0 r s_end d [_ [D0 H0] _ [_ H1] [Hd _]]. destruct b; [|constructor].
  constructor; [constructor|lra|assumption|lra|right; lra].
Qed.

(** ** C127 *)

(** The generation ends, within a number of turns given by the length and the smallest size. *)
Theorem C127_generation_ends : forall breakpoints f ds0 r s_end d n,
  reasonable f ds0 r s_end d -> 2 * s_end / d <= INR n ->
  exists m, mesh_rounded n breakpoints f ds0 r s_end = Some m.
Proof.
  intros breakpoints f ds0 r s_end d n G Hn. unfold mesh_rounded.
  pose proof (start_growing breakpoints _ _ _ _ _ G) as SG. destruct G as [Hs [D0 H0] Hr [De H1] [Hd Hde]].
  destruct (loop_ends f r s_end d Hs Hr Hd De H1 Hde n (if breakpoints then [ds0; 0] else [0]) ds0 SG D0 H0) as [m E].
  - assert (X : s_end <= INR n * (d / 2)).
    { apply (Rmult_le_compat_r (d / 2)) in Hn; [|lra].
      replace (2 * s_end / d * (d / 2)) with s_end in Hn by (field; lra). exact Hn. }
    destruct breakpoints; cbn [hd]; lra.
  - rewrite E. eexists. reflexivity.
Qed.

(** The positions start at zero, increase strictly and finish at the end of the curve up to a relative
    error of 5/2^53. *)
Theorem C127_mesh_partial : forall breakpoints f ds0 r s_end d n m,
  reasonable f ds0 r s_end d -> mesh_rounded n breakpoints f ds0 r s_end = Some (Some m) ->
  nth_error m 0 = Some 0 /\ StronglySorted Rlt m /\ Forall is_double m /\
  Rabs (last m 0 - s_end) <= 5 / 2 ^ 53 * s_end.
Proof.
  intros breakpoints f ds0 r s_end d n m G E. unfold mesh_rounded in E.
  pose proof (start_growing breakpoints _ _ _ _ _ G) as SG. destruct G as [Hs [D0 H0] Hr [De H1] [Hd Hde]].
  destruct (loop_rounded n f r s_end (if breakpoints then [ds0; 0] else [0]) ds0) as [w|] eqn:W; [|discriminate E].
  injection E as E.
  destruct (loop_result f r s_end d Hs Hr Hd De H1 Hde n _ ds0 w SG D0 H0 W) as [Gw Hw].
  unfold squash_rounded in E.
  destruct w as [|p0 [|p1 [|p2 [|p3 [|p4 [|p5 [|base rest]]]]]]]; try discriminate E.
  cbn [option_map map app] in E. apply (f_equal (fun o => match o with Some v => v | None => [] end)) in E. cbv beta iota in E.
  assert (Gb : growing s_end d (base :: rest) /\ base + 5 * (d / 2) < s_end).
  { inversion Gw as [|a b l G1 L1 _ _ I1]; subst. inversion G1 as [|a b l G2 L2 _ _ I2]; subst.
    inversion G2 as [|a b l G3 L3 _ _ I3]; subst. inversion G3 as [|a b l G4 L4 _ _ I4]; subst.
    inversion G4 as [|a b l G5 L5 _ _ I5]; subst. inversion G5 as [|a b l G6 L6 _ _ I6]; subst.
    split; [exact G6|]. lra. }
  destruct Gb as [Gb Hb]. destruct (growing_nonneg _ _ H1 _ _ Gb) as [Db Nb].
  assert (Hq : s_end * / 2 ^ 47 <= s_end - base) by (simpl in *; lra).
  assert (Hq' : s_end * (80 / 2 ^ 53) <= s_end - base) by (simpl in *; lra).
  assert (A : forall i, In i [1; 2; 3; 4; 5; 6] ->
    - (5 / 2 ^ 53 * s_end) <= squashed s_end base i - (base + i * ((s_end - base) / 6)) <= 5 / 2 ^ 53 * s_end).
  { intros i Hi. apply Rabs_le_inv. apply six_points; assumption. }
  pose proof (A 1 ltac:(simpl; tauto)) as A1. pose proof (A 2 ltac:(simpl; tauto)) as A2.
  pose proof (A 3 ltac:(simpl; tauto)) as A3. pose proof (A 4 ltac:(simpl; tauto)) as A4.
  pose proof (A 5 ltac:(simpl; tauto)) as A5. pose proof (A 6 ltac:(simpl; tauto)) as A6. clear A.
  destruct (growing_descends _ _ _ Gb) as (Sb & Fb & Zb).
  subst m.
  assert (Q : forall i, is_double (squashed s_end base i)) by (intros; apply rnd_double).
  set (x1 := squashed s_end base 1) in *. set (x2 := squashed s_end base 2) in *.
  set (x3 := squashed s_end base 3) in *. set (x4 := squashed s_end base 4) in *.
  set (x5 := squashed s_end base 5) in *. set (x6 := squashed s_end base 6) in *.
  assert (O : base < x1 /\ x1 < x2 /\ x2 < x3 /\ x3 < x4 /\ x4 < x5 /\ x5 < x6) by (simpl in *; lra).
  repeat split.
  - change (rev (x6 :: x5 :: x4 :: x3 :: x2 :: x1 :: base :: rest))
      with ((((((rev (base :: rest) ++ [x1]) ++ [x2]) ++ [x3]) ++ [x4]) ++ [x5]) ++ [x6]).
    rewrite <- !app_assoc. rewrite nth_error_app1; [exact Zb|]. rewrite rev_length. cbn. lia.
  - apply sorted_rev.
    do 6 (apply descending_cons; [|lra]). exact Sb.
  - apply Forall_forall. intros y Hy. rewrite <- in_rev in Hy.
    rewrite Forall_forall in Fb. repeat (destruct Hy as [<-|Hy]; [apply Q || apply Db|]). apply Fb. right. exact Hy.
  - change (rev (x6 :: x5 :: x4 :: x3 :: x2 :: x1 :: base :: rest)) with (rev (x5 :: x4 :: x3 :: x2 :: x1 :: base :: rest) ++ [x6]).
    rewrite last_last. apply Rabs_le. simpl in *. lra.
Qed.

(** ** The end is missed, and very small sizes *)

Lemma small_integers : forall k e x, x = IZR k * bpow radix2 e -> (Z.abs k < 2 ^ 53)%Z -> (-1074 <= e)%Z -> rnd x = x.
Proof. intros k e x -> Hk He. apply rnd_id. apply (double_of k e); [reflexivity|assumption|assumption]. Qed.

Definition constant_size (x : R) : R := 5 / 4.
Definition short_curve : R := 13 / 2 + 5 / 2 ^ 50.

Example C127_case : reasonable constant_size (5 / 4) 2 short_curve (5 / 4).
Proof.
  constructor.
  - intros x. split; [|unfold constant_size; lra]. apply (double_of 5 (-2)); [unfold constant_size; simpl; lra|reflexivity|lia].
  - split; [|lra]. apply (double_of 5 (-2)); [simpl; lra|reflexivity|lia].
  - lra.
  - split; [|unfold short_curve; simpl; lra].
    apply (double_of (13 * 2 ^ 49 + 5) (-50)); [unfold short_curve; simpl; lra|reflexivity|lia].
  - unfold short_curve. simpl. lra.
Qed.

Lemma constant_clamp : forall x, clamp_rounded 2 (5 / 4) (constant_size x) = 5 / 4.
Proof.
  intros x. unfold clamp_rounded, constant_size, fmul, fdiv.
  rewrite (small_integers 5 (-1)) by (try reflexivity; try lia; simpl; lra).
  rewrite (small_integers 5 (-3)) by (try reflexivity; try lia; simpl; lra).
  destruct (Rlt_dec (2 * (5 / 4)) (5 / 4)); [lra|]. destruct (Rlt_dec (5 / 4) (5 / 4 / 2)); [lra|reflexivity].
Qed.
Lemma constant_step : forall n k l, (0 < k <= 20)%Z -> loop_rounded (S n) constant_size 2 short_curve (IZR k * (5 / 4) :: l) (5 / 4) =
  if Rlt_dec (IZR k * (5 / 4)) short_curve
  then loop_rounded n constant_size 2 short_curve (IZR (k + 1) * (5 / 4) :: IZR k * (5 / 4) :: l) (5 / 4)
  else Some (IZR k * (5 / 4) :: l).
Proof.
  intros n k l Hk. cbn [loop_rounded]. destruct (Rlt_dec _ _); [|reflexivity].
  cbv zeta. rewrite constant_clamp. unfold fadd.
  rewrite (small_integers ((k + 1) * 5) (-2)).
  - replace (IZR k * (5 / 4) + 5 / 4) with (IZR (k + 1) * (5 / 4)) by (rewrite plus_IZR; lra). reflexivity.
  - rewrite mult_IZR, plus_IZR. simpl. lra.
  - lia.
  - lia.
Qed.

(** The last position is one unit after the end of the curve, where the curve is evaluated without the [min]
    of the loop. *)
Theorem C127_end_refuted : exists f ds0 r s_end d m,
  reasonable f ds0 r s_end d /\ mesh_rounded 10 true f ds0 r s_end = Some (Some m) /\ s_end < last m 0.
Proof.
  exists constant_size, (5 / 4), 2, short_curve, (5 / 4).
  eexists. split; [exact C127_case|]. split.
  - unfold mesh_rounded.
    replace (5 / 4) with (IZR 1 * (5 / 4)) at 1 by lra.
    do 5 (rewrite constant_step by lia; cbn [Z.add Pos.add Pos.succ];
      match goal with |- context [Rlt_dec ?a ?b] => destruct (Rlt_dec a b) as [_|H]; [|exfalso; apply H; unfold short_curve; simpl; lra] end).
    rewrite constant_step by lia.
    match goal with |- context [Rlt_dec ?a ?b] => destruct (Rlt_dec a b) as [H|_]; [exfalso; unfold short_curve in H; simpl in H; lra|] end.
    cbn [squash_rounded option_map]. reflexivity.
  - cbn [map app rev last]. unfold squashed, fadd, fmul, fdiv, fsub.
    rewrite Rminus_0_r. rewrite (rnd_id short_curve) by apply (proj1 (curve _ _ _ _ _ C127_case)).
    assert (Q : rnd (short_curve / 6) = (13 * 2 ^ 51 + 22) / 6 / 2 ^ 52).
    { rewrite (rnd_at _ 1 4878899596318041).
      - simpl. lra.
      - lia.
      - unfold short_curve. rewrite Rabs_pos_eq; simpl; lra.
      - unfold short_curve. apply Rabs_lt. simpl. lra. }
    rewrite Q.
    assert (Q6 : rnd (6 * ((13 * 2 ^ 51 + 22) / 6 / 2 ^ 52)) = 13 / 2 + 6 / 2 ^ 50).
    { rewrite (rnd_tie _ 3 (13 * 2 ^ 49 + 5)).
      - simpl. lra.
      - lia.
      - rewrite Rabs_pos_eq; simpl; lra.
      - simpl. lra. }
    rewrite Q6. rewrite Rplus_0_l. rewrite rnd_id.
    + unfold short_curve. simpl. lra.
    + apply (double_of (13 * 2 ^ 49 + 6) (-50)); [simpl; lra|reflexivity|lia].
Qed.

Definition tiny (x : R) : R := / 2 ^ 46.
(** With a size below half a unit of the positions the loop never ends: the position stays at 256 metres. *)
Theorem C127_tiny_sizes_refuted : forall n breakpoints,
  mesh_rounded n breakpoints tiny (/ 2 ^ 46) 2 1000 = None.
Proof.
  assert (C : forall x, clamp_rounded 2 (/ 2 ^ 46) (tiny x) = / 2 ^ 46).
  { intros x. unfold clamp_rounded, tiny, fmul, fdiv.
    rewrite (small_integers 1 (-45)) by (try reflexivity; try lia; simpl; lra).
    rewrite (small_integers 1 (-47)) by (try reflexivity; try lia; simpl; lra).
    destruct (Rlt_dec (2 * / 2 ^ 46) (/ 2 ^ 46)); [simpl in *; lra|].
    destruct (Rlt_dec (/ 2 ^ 46) (/ 2 ^ 46 / 2)); [simpl in *; lra|reflexivity]. }
  assert (L : forall n back l, back <= 256 -> loop_rounded n tiny 2 1000 (back :: l) (/ 2 ^ 46) = None).
  { induction n as [|n IH]; intros back l H; cbn [loop_rounded]; (destruct (Rlt_dec back 1000) as [_|X]; [|lra]).
    - reflexivity.
    - cbv zeta. rewrite C. apply IH. unfold fadd.
      apply Rle_trans with (rnd (256 + / 2 ^ 46)); [apply rnd_le; lra|].
      rewrite (rnd_at _ 9 (2 ^ 52)); [simpl; lra|lia| |].
      + rewrite Rabs_pos_eq; simpl; lra.
      + apply Rabs_lt. simpl. lra. }
  intros n breakpoints. unfold mesh_rounded. destruct breakpoints; rewrite L; try reflexivity; simpl; lra.
Qed.

Print Assumptions C127_generation_ends.
Print Assumptions C127_mesh_partial.
Print Assumptions C127_end_refuted.
Print Assumptions C127_tiny_sizes_refuted.
