(** Position-dependent parameters in double precision. *)
From Coq Require Import Reals ZArith Lia Lra List Arith Sorted.
From Flocq Require Import Core Relative Plus_error.
From Verif Require Import S_Rounded M_Rounded L_Rounded.
Import ListNotations.
Local Open Scope R_scope.

(** ** The blend *)
Section Blend.
Context (vl vr sl sr s : R).
Context (Dvl : is_double vl) (Dvr : is_double vr).

Lemma fsub_le : forall a b c, a <= b -> fsub a c <= fsub b c.
Proof. intros. apply rnd_le. lra. Qed.
Lemma fraction : sl <= s < sr -> 0 <= fdiv (fsub s sl) (fsub sr sl) <= 1.
Proof.
  intros [H0 H1]. apply ratio_bounds; try apply rnd_double. split.
  - apply rnd_ge_0. lra.
  - apply fsub_le. lra.
Qed.

Lemma blend_below : vl <= vr -> sl <= s < sr ->
  vl <= blend vl vr sl sr s <= rnd (vl + rnd (vr - vl)).
Proof.
  intros L I. pose proof (fraction I) as [X0 X1]. unfold blend.
  set (xi := fdiv _ _) in *. unfold fadd, fmul, fsub.
  assert (R0 : 0 <= rnd (vr - vl)) by (apply rnd_ge_0; lra).
  assert (P0 : 0 <= rnd (xi * rnd (vr - vl))) by (apply rnd_ge_0, Rmult_le_pos; assumption).
  split.
  - rewrite <- (rnd_id vl Dvl) at 1. apply rnd_le. lra.
  - apply rnd_le. apply Rplus_le_compat_l.
    rewrite <- (rnd_id (rnd (vr - vl))) at 2 by apply rnd_double. apply rnd_le.
    rewrite <- (Rmult_1_l (rnd (vr - vl))) at 2. apply Rmult_le_compat_r; assumption.
Qed.

Lemma blend_inside : vl <= vr -> sl <= s < sr -> fsub s sl < fsub sr sl ->
  vl <= blend vl vr sl sr s <= vr.
Proof.
  intros L I S. split; [apply blend_below; assumption|].
  assert (X : 0 <= fdiv (fsub s sl) (fsub sr sl) <= 1 - bpow radix2 (-53)).
  { split; [apply fraction; assumption|]. apply below_one. apply ratio_below_one; try apply rnd_double.
    split; [apply rnd_ge_0; lra|assumption]. }
  unfold blend. pose proof (part_of_difference vl vr _ Dvl Dvr L X) as P.
  unfold fadd. rewrite <- (rnd_id vr Dvr) at 2. apply rnd_le.
  set (y := fmul _ _) in *. lra.
Qed.
End Blend.

Lemma blend_opp : forall vl vr sl sr s, blend (- vl) (- vr) sl sr s = - blend vl vr sl sr s.
Proof.
  intros. unfold blend, fadd, fmul, fsub.
  replace (- vr - - vl) with (- (vr - vl)) by ring. rewrite rnd_opp.
  rewrite Ropp_mult_distr_r_reverse, rnd_opp, <- Ropp_plus_distr, rnd_opp. reflexivity.
Qed.

Lemma blend_rises : forall vl vr sl sr s s', vl <= vr -> sl <= s <= s' -> s' < sr ->
  blend vl vr sl sr s <= blend vl vr sl sr s'.
Proof.
  intros vl vr sl sr s s' L I J. unfold blend, fadd, fmul.
  apply rnd_le, Rplus_le_compat_l, rnd_le. apply Rmult_le_compat_r.
  - apply rnd_ge_0. lra.
  - apply rnd_le. apply Rmult_le_compat_r.
    + assert (0 <= fsub sr sl) by (apply rnd_ge_0; lra).
      destruct (Req_dec (fsub sr sl) 0) as [E|E]; [rewrite E, Rinv_0; lra|].
      left. apply Rinv_0_lt_compat. lra.
    + apply fsub_le. lra.
Qed.

Lemma whole_difference : forall vl vr, is_double vl -> is_double vr ->
  Rabs (rnd (vl + rnd (vr - vl)) - vr) <= bpow radix2 (-52) * Rabs (vr - vl).
Proof.
  intros vl vr Dl Dr.
  assert (E : Rabs (rnd (vr - vl) - (vr - vl)) <= bpow radix2 (-53) * Rabs (vr - vl)).
  { destruct (Rle_lt_dec (Rabs (vr - vl)) (bpow radix2 (53 + -1074))) as [S|S].
    - rewrite rnd_id; [replace (vr - vl - (vr - vl)) with 0 by ring; rewrite Rabs_R0|].
      + apply Rmult_le_pos; [apply bpow_ge_0|apply Rabs_pos].
      + unfold double, Rminus, binary64. apply FLT_format_plus_small; try assumption; [reflexivity|].
        apply double_opp. assumption.
    - replace (bpow radix2 (-53)) with (/ 2 * bpow radix2 (- (53) + 1)) by (simpl; lra).
      apply relative_error_N_FLT; [reflexivity|].
      apply Rle_trans with (bpow radix2 (53 + -1074)); [apply bpow_le; lia|lra]. }
  set (w := vl + rnd (vr - vl)).
  assert (W : Rabs (vr - w) <= bpow radix2 (-53) * Rabs (vr - vl)).
  { replace (vr - w) with (- (rnd (vr - vl) - (vr - vl))) by (unfold w; ring). rewrite Rabs_Ropp. exact E. }
  destruct (round_N_pt radix2 binary64 (fun t => negb (Z.even t)) w) as [_ N].
  specialize (N vr Dr). fold (rnd w) in N.
  replace (bpow radix2 (-52)) with (bpow radix2 (-53) + bpow radix2 (-53)) by (simpl; lra).
  replace (rnd w - vr) with ((rnd w - w) + - (vr - w)) by ring.
  eapply Rle_trans; [apply Rabs_triang|]. rewrite Rabs_Ropp. lra.
Qed.

(** ** The evaluation *)
Lemma upper_bound_position : forall mesh k sl il sr ir s, StronglySorted Rlt (map fst mesh) ->
  nth_error mesh k = Some (sl, il) -> nth_error mesh (S k) = Some (sr, ir) -> sl <= s < sr ->
  upper_bound mesh s = S k.
Proof.
  induction mesh as [|a mesh IH]; intros k sl il sr ir s O N M I; [destruct k; discriminate N|].
  cbn [map] in O. inversion O as [|x l Ol Oa]; subst. destruct k as [|k].
  - cbn in N. injection N as ->. cbn [upper_bound fst]. destruct (Rle_dec sl s); [|lra]. f_equal.
    destruct mesh as [|b mesh]; [discriminate M|]. cbn in M. injection M as ->.
    cbn [upper_bound fst]. destruct (Rle_dec sr s); [lra|reflexivity].
  - cbn in N, M. cbn [upper_bound]. destruct (Rle_dec (fst a) s) as [H|H].
    + f_equal. eapply IH; eassumption.
    + exfalso. apply H. rewrite Forall_forall in Oa.
      assert (In sl (map fst mesh)) by (apply in_map_iff; exists (sl, il); split; [reflexivity|eapply nth_error_In; exact N]).
      specialize (Oa _ H0). lra.
Qed.

Lemma evaluated : forall values mesh s sl sr vl vr, declared values mesh ->
  between_positions values mesh s sl sr vl vr ->
  eval_rounded values mesh s = Some (blend vl vr sl sr s) /\ is_double vl /\ is_double vr /\ sl <= s < sr /\
  is_double sl /\ is_double sr.
Proof.
  intros values mesh s sl sr vl vr D (k & il & ir & N & M & VL & VR & I).
  split.
  - unfold eval_rounded. rewrite (upper_bound_position mesh k sl il sr ir s (ordered _ _ D) N M I).
    destruct (Nat.eqb_spec (length values) 1) as [H|_]; [pose proof (enough _ _ D); lia|].
    change (Nat.eqb (S k) 0) with false. cbv iota zeta. replace (S k - 1)%nat with k by lia.
    destruct (Nat.eqb_spec (S k) (length mesh)) as [H|_].
    { exfalso. assert (X : nth_error mesh (S k) <> None) by (rewrite M; discriminate).
      apply nth_error_Some in X. lia. }
    rewrite N, M, VL, VR. reflexivity.
  - destruct (doubles _ _ D) as [DV DM]. rewrite Forall_forall in DV, DM.
    pose proof (nth_error_In _ _ N) as IN. pose proof (nth_error_In _ _ M) as IM.
    apply DM in IN. apply DM in IM.
    repeat match goal with |- _ /\ _ => split end; try assumption; try apply I;
      apply DV; eapply nth_error_In; eassumption.
Qed.

(** ** C126 *)

(** Outside of the case in which rounding makes the position coincide with the next one, the value
    stays between the two declared ones. *)
Theorem C126_between_partial : forall values mesh s sl sr vl vr,
  declared values mesh -> between_positions values mesh s sl sr vl vr ->
  rnd (s - sl) < rnd (sr - sl) ->
  exists v, eval_rounded values mesh s = Some v /\ Rmin vl vr <= v <= Rmax vl vr.
Proof.
  intros values mesh s sl sr vl vr D B S.
  destruct (evaluated _ _ _ _ _ _ _ D B) as (E & Dl & Dr & I & _).
  exists (blend vl vr sl sr s). split; [exact E|]. destruct (Rle_dec vl vr) as [L|L].
  - rewrite Rmin_left, Rmax_right by assumption. apply blend_inside; assumption.
  - rewrite Rmin_right, Rmax_left by lra.
    pose proof (blend_inside (- vl) (- vr) sl sr s (double_opp _ Dl) (double_opp _ Dr)) as P.
    rewrite blend_opp in P. assert (- vl <= - vr) by lra. specialize (P H I S). lra.
Qed.

(** In particular when the distances to the position on the left are doubles themselves. *)
Theorem C126_exact_positions_partial : forall values mesh s sl sr vl vr,
  declared values mesh -> between_positions values mesh s sl sr vl vr ->
  is_double (s - sl) -> is_double (sr - sl) ->
  exists v, eval_rounded values mesh s = Some v /\ Rmin vl vr <= v <= Rmax vl vr.
Proof.
  intros values mesh s sl sr vl vr D B E1 E2. eapply C126_between_partial; try eassumption.
  rewrite (rnd_id _ E1), (rnd_id _ E2). destruct B as (k & il & ir & _ & _ & _ & _ & I). lra.
Qed.

(** In all cases rounding takes the value at most a fraction 2^-52 of the difference outside. *)
Theorem C126_rounding : forall values mesh s sl sr vl vr,
  declared values mesh -> between_positions values mesh s sl sr vl vr ->
  exists v, eval_rounded values mesh s = Some v /\
    Rmin vl vr - / 2 ^ 52 * Rabs (vr - vl) <= v <= Rmax vl vr + / 2 ^ 52 * Rabs (vr - vl).
Proof.
  intros values mesh s sl sr vl vr D B.
  destruct (evaluated _ _ _ _ _ _ _ D B) as (E & Dl & Dr & I & _).
  exists (blend vl vr sl sr s). split; [exact E|].
  replace (/ 2 ^ 52) with (bpow radix2 (-52)) by (simpl; lra).
  assert (P : 0 <= bpow radix2 (-52) * Rabs (vr - vl)) by (apply Rmult_le_pos; [apply bpow_ge_0|apply Rabs_pos]).
  destruct (Rle_dec vl vr) as [L|L].
  - rewrite Rmin_left, Rmax_right by assumption.
    pose proof (blend_below vl vr sl sr s Dl L I) as [B0 B1].
    pose proof (Rabs_le_inv _ _ (whole_difference vl vr Dl Dr)) as W. lra.
  - rewrite Rmin_right, Rmax_left by lra.
    pose proof (blend_below (- vl) (- vr) sl sr s (double_opp _ Dl)) as Q.
    rewrite blend_opp in Q. assert (H : - vl <= - vr) by lra. destruct (Q H I) as [B0 B1].
    pose proof (Rabs_le_inv _ _ (whole_difference _ _ (double_opp _ Dl) (double_opp _ Dr))) as W.
    replace (- vr - - vl) with (- (vr - vl)) in * by ring. rewrite Rabs_Ropp in W. lra.
Qed.

(** The value rises (or falls) with the position, rounding included. *)
Theorem C126_monotone : forall values mesh s s' sl sr vl vr v v',
  declared values mesh -> between_positions values mesh s sl sr vl vr -> s <= s' < sr ->
  eval_rounded values mesh s = Some v -> eval_rounded values mesh s' = Some v' ->
  (vl <= vr -> v <= v') /\ (vr <= vl -> v' <= v).
Proof.
  intros values mesh s s' sl sr vl vr v v' D B I' V V'.
  assert (B' : between_positions values mesh s' sl sr vl vr).
  { destruct B as (k & il & ir & N & M & VL & VR & I). exists k, il, ir. repeat split; try assumption; lra. }
  destruct (evaluated _ _ _ _ _ _ _ D B) as (E & Dl & Dr & I & _).
  destruct (evaluated _ _ _ _ _ _ _ D B') as (E' & _).
  rewrite E in V. rewrite E' in V'. injection V as <-. injection V' as <-. split; intros L.
  - apply blend_rises; lra.
  - assert (H : blend (- vl) (- vr) sl sr s <= blend (- vl) (- vr) sl sr s') by (apply blend_rises; lra).
    rewrite !blend_opp in H. lra.
Qed.

(** At a declared position, the declared value, exactly; between two equal values, that value. *)
Theorem C126_exact : forall values mesh s sl sr vl vr,
  declared values mesh -> between_positions values mesh s sl sr vl vr -> s = sl \/ vl = vr ->
  eval_rounded values mesh s = Some vl.
Proof.
  intros values mesh s sl sr vl vr D B C.
  destruct (evaluated _ _ _ _ _ _ _ D B) as (E & Dl & _). rewrite E. f_equal.
  unfold blend, fadd, fmul, fdiv, fsub. destruct C as [-> | <-].
  - replace (sl - sl) with 0 by ring. rewrite rnd_0. unfold Rdiv. rewrite Rmult_0_l, rnd_0, Rmult_0_l, rnd_0, Rplus_0_r.
    apply rnd_id, Dl.
  - replace (vl - vl) with 0 by ring. rewrite rnd_0, Rmult_0_r, rnd_0, Rplus_0_r. apply rnd_id, Dl.
Qed.

(** ** A case that leaves the interval *)

(** Positions 2^-44 and 1000 + 2^-43, values -1 and 3/2^54, at the position 1000. *)
Definition case_values : list R := [-1; 3 / 2 ^ 54].
Definition case_mesh : list (R * nat) := [(/ 2 ^ 44, 0%nat); (1000 + / 2 ^ 43, 1%nat)].

Example C126_case : declared case_values case_mesh /\
  between_positions case_values case_mesh 1000 (/ 2 ^ 44) (1000 + / 2 ^ 43) (-1) (3 / 2 ^ 54) /\
  between_positions case_values case_mesh 500 (/ 2 ^ 44) (1000 + / 2 ^ 43) (-1) (3 / 2 ^ 54) /\
  rnd (500 - / 2 ^ 44) < rnd (1000 + / 2 ^ 43 - / 2 ^ 44).
Proof.
  split; [|split; [|split]].
  - constructor.
    + cbn. lia.
    + cbn [case_mesh map fst]. repeat constructor; simpl; lra.
    + intros p [<-|[<-|[]]]; cbn; lia.
    + split; repeat constructor; cbn [fst].
      * apply (double_of (-1) 0); [simpl; lra|reflexivity|lia].
      * apply (double_of 3 (-54)); [simpl; lra|reflexivity|lia].
      * apply (double_of 1 (-44)); [simpl; lra|reflexivity|lia].
      * apply (double_of (1000 * 2 ^ 43 + 1) (-43)); [simpl; lra|reflexivity|lia].
  - exists 0%nat, 0%nat, 1%nat. repeat split; simpl; lra.
  - exists 0%nat, 0%nat, 1%nat. repeat split; simpl; lra.
  - assert (D5 : is_double 500) by (apply (double_of 500 0); [simpl; lra|reflexivity|lia]).
    assert (D9 : is_double 900) by (apply (double_of 900 0); [simpl; lra|reflexivity|lia]).
    assert (rnd (500 - / 2 ^ 44) <= rnd 500) by (apply rnd_le; simpl; lra).
    assert (rnd 900 <= rnd (1000 + / 2 ^ 43 - / 2 ^ 44)) by (apply rnd_le; simpl; lra).
    rewrite (rnd_id _ D5) in *. rewrite (rnd_id _ D9) in *. lra.
Qed.

(** The value at the position 1000 is 2^-52, above both declared values. *)
Theorem C126_between_refuted :
  exists values mesh s sl sr vl vr v, declared values mesh /\ is_double s /\
    between_positions values mesh s sl sr vl vr /\
    eval_rounded values mesh s = Some v /\ Rmax vl vr < v.
Proof.
  exists case_values, case_mesh, 1000, (/ 2 ^ 44), (1000 + / 2 ^ 43), (-1), (3 / 2 ^ 54), (/ 2 ^ 52).
  destruct C126_case as (D & B & _). split; [exact D|]. split.
  { apply (double_of 1000 0); [simpl; lra|reflexivity|lia]. }
  split; [exact B|]. split; [|rewrite Rmax_right; simpl; lra].
  destruct (evaluated _ _ _ _ _ _ _ D B) as (E & _). rewrite E. f_equal.
  assert (E1 : fsub 1000 (/ 2 ^ 44) = 1000).
  { unfold fsub. rewrite (rnd_tie _ 10 (1000 * 2 ^ 43 - 1)); [simpl; lra|lia| |].
    - rewrite Rabs_pos_eq; simpl; lra.
    - simpl. lra. }
  assert (E2 : fsub (1000 + / 2 ^ 43) (/ 2 ^ 44) = 1000).
  { unfold fsub. rewrite (rnd_tie _ 10 (1000 * 2 ^ 43)); [simpl; lra|lia| |].
    - rewrite Rabs_pos_eq; simpl; lra.
    - simpl. lra. }
  assert (E3 : fsub (3 / 2 ^ 54) (-1) = 1 + / 2 ^ 52).
  { unfold fsub. rewrite (rnd_at _ 1 (2 ^ 52 + 1)); [simpl; lra|lia| |].
    - rewrite Rabs_pos_eq; simpl; lra.
    - apply Rabs_lt. simpl. lra. }
  unfold blend. rewrite E1, E2, E3. unfold fdiv, fmul, fadd.
  replace (1000 / 1000) with 1 by lra. rewrite (rnd_id 1 double_1), Rmult_1_l.
  rewrite (rnd_id (1 + / 2 ^ 52)).
  - replace (-1 + (1 + / 2 ^ 52)) with (/ 2 ^ 52) by ring. apply rnd_id.
    apply (double_of 1 (-52)); [simpl; lra|reflexivity|lia].
  - apply (double_of (2 ^ 52 + 1) (-52)); [simpl; lra|reflexivity|lia].
Qed.

Print Assumptions C126_between_partial.
Print Assumptions C126_exact_positions_partial.
Print Assumptions C126_rounding.
Print Assumptions C126_monotone.
Print Assumptions C126_exact.
Print Assumptions C126_between_refuted.
