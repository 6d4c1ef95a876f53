(** The value that the solver minimises in double precision, up to the rounding of its operations. *)
From Coq Require Import Reals ZArith Lia Lra List Arith.
From Flocq Require Import Core.
From Verif Require Import S_Rounded M_Rounded L_Rounded S_RoundedTime M_RoundedTime S_RoundedCost P_RoundedTime.
Import ListNotations.
Local Open Scope R_scope.

(** ** Numbers that are zero or large *)
Definition big (e : nat) (x : R) : Prop := x = 0 \/ / 2 ^ e <= x.
Lemma half_power e : 0 < / 2 ^ e.
Proof. apply Rinv_0_lt_compat, pow_lt. lra. Qed.
Lemma big_pos e x : big e x -> 0 <= x.
Proof. pose proof (half_power e). intros [-> | H']; lra. Qed.
Lemma big_more e f x : (e <= f)%nat -> big e x -> big f x.
Proof. intros L [H | H]; [left; exact H | right]. apply Rle_trans with (2 := H). apply Rinv_le_contravar; [apply pow_lt; lra | apply Rle_pow; [lra | exact L]]. Qed.
Lemma big_mul e f x y : big e x -> big f y -> big (e + f) (x * y).
Proof.
  intros [-> | H] [-> | H']; try (left; ring). right. rewrite pow_add, Rinv_mult. pose proof (half_power e). pose proof (half_power f). apply Rmult_le_compat; lra.
Qed.
Lemma big_add e x y : big e x -> big e y -> big e (x + y).
Proof. pose proof (half_power e). intros [-> | H1] [-> | H2]; [left; ring | right; lra | right; lra | right; lra]. Qed.
Lemma power_double e : (e <= 1000)%nat -> double (/ 2 ^ e).
Proof.
  intros H. replace (/ 2 ^ e) with (bpow radix2 (- Z.of_nat e)); [|rewrite bpow_opp, bpow_powerRZ, <- pow_powerRZ; reflexivity].
  apply generic_format_bpow. unfold binary64, FLT_exp. lia.
Qed.
Lemma big_rnd e x : (e <= 1000)%nat -> big e x -> big e (rnd x).
Proof. intros L [-> | H]; [left; apply rnd_0 | right]. rewrite <- (rnd_id _ (power_double e L)). apply rnd_le, H. Qed.
Lemma big_fmul e f x y : (e + f <= 1000)%nat -> big e x -> big f y -> big (e + f) (fmul x y).
Proof. intros L H1 H2. apply big_rnd; [exact L | apply big_mul; assumption]. Qed.
Lemma fmul_near e f k j x y x' y' : (e + f <= 1000)%nat -> big e x -> big f x' -> 0 <= y -> 0 <= y' -> near k x y -> near j x' y' -> near (S (k + j)) (fmul x x') (y * y').
Proof.
  intros L B B' P P' N N'. apply near_fmul; [|apply Rmult_le_pos; assumption | apply near_prod; assumption].
  destruct (big_more (e + f) 1000 _ L (big_mul _ _ _ _ B B')) as [H | H]; [left | right]; exact H.
Qed.
Lemma rnd_abs x : Rabs (rnd x) = rnd (Rabs x).
Proof.
  destruct (Rle_or_lt 0 x) as [H | H]; [rewrite (Rabs_pos_eq x H); apply Rabs_pos_eq, rnd_ge_0, H|].
  rewrite (Rabs_left x H), rnd_opp. apply Rabs_left1. pose proof (rnd_ge_0 (- x) ltac:(lra)) as P. rewrite rnd_opp in P. lra.
Qed.
Lemma fsub_abs x y : is_double x -> is_double y -> near 1 (Rabs (fsub x y)) (Rabs (x - y)).
Proof.
  intros Dx Dy. unfold fsub. rewrite rnd_abs. destruct (Rle_or_lt y x) as [H | H].
  - rewrite Rabs_pos_eq by lra. apply (near_fsub 0); [exact Dx | exact Dy | lra | apply near_0].
  - rewrite Rabs_left by lra. replace (- (x - y)) with (y - x) by ring. apply (near_fsub 0); [exact Dy | exact Dx | lra | apply near_0].
Qed.
Lemma near_inv k x y : 0 < y -> near k x y -> near (2 * k) (/ x) (/ y).
Proof.
  intros Py [N1 N2]. pose proof (low_pos k) as [Lk _]. pose proof (high_pos k) as Hk. assert (Px : 0 < x) by (eapply Rlt_le_trans; [|exact N1]; apply Rmult_lt_0_compat; lra).
  pose proof u_small as U. assert (Q : forall j, 1 <= (1 - u_) ^ j * (1 + u_) ^ (2 * j) /\ (1 - u_) ^ (2 * j) * (1 + u_) ^ j <= 1).
  { intros j. replace ((1 - u_) ^ j * (1 + u_) ^ (2 * j)) with (((1 - u_) * ((1 + u_) * (1 + u_))) ^ j) by (rewrite !Rpow_mult_distr, <- pow_add; do 2 f_equal; lia).
    replace ((1 - u_) ^ (2 * j) * (1 + u_) ^ j) with (((1 - u_) * (1 - u_) * (1 + u_)) ^ j) by (rewrite !Rpow_mult_distr, <- pow_add; do 2 f_equal; lia). split.
    - apply pow_R1_Rle. assert (u_ * u_ <= u_ * (1 / 2)) by nra. assert (0 <= u_ * (1 - u_ - u_ * u_)) by (apply Rmult_le_pos; lra). lra.
    - apply Rle_trans with (1 ^ j); [apply pow_incr | rewrite pow1; lra]. assert (0 <= u_ * u_) by nra. assert (0 <= u_ * u_ * (1 - u_)) by (apply Rmult_le_pos; lra). assert (0 <= (1 - u_) * (1 - u_)) by nra. split; [apply Rmult_le_pos; [assumption | lra] | nra]. }
  destruct (Q k) as [Q1 Q2]. pose proof (Rinv_0_lt_compat _ Px). pose proof (Rinv_0_lt_compat _ Py). split.
  - apply Rmult_le_reg_r with (x * y); [apply Rmult_lt_0_compat; assumption|]. replace ((1 - u_) ^ (2 * k) * / y * (x * y)) with ((1 - u_) ^ (2 * k) * x) by (field; lra). replace (/ x * (x * y)) with y by (field; lra).
    pose proof (low_pos (2 * k)). apply Rle_trans with ((1 - u_) ^ (2 * k) * ((1 + u_) ^ k * y)); [apply Rmult_le_compat_l; lra|]. rewrite <- Rmult_assoc. rewrite <- (Rmult_1_l y) at 2. apply Rmult_le_compat_r; lra.
  - apply Rmult_le_reg_r with (x * y); [apply Rmult_lt_0_compat; assumption|]. replace ((1 + u_) ^ (2 * k) * / y * (x * y)) with ((1 + u_) ^ (2 * k) * x) by (field; lra). replace (/ x * (x * y)) with y by (field; lra).
    pose proof (high_pos (2 * k)). apply Rle_trans with ((1 + u_) ^ (2 * k) * ((1 - u_) ^ k * y)); [|apply Rmult_le_compat_l; lra]. rewrite <- Rmult_assoc. rewrite <- (Rmult_1_l y) at 1. apply Rmult_le_compat_r; lra.
Qed.

(** ** The penalisations of an element *)
Section Element.
Context (c : full_control) (F : fair_control c) (a b : R) (Da : is_double a) (Db : is_double b) (Hl : / 2 ^ 100 <= b - a) (Hh : b - a <= 2 ^ 100).
Lemma length_near : near 1 (fsub b a) (b - a).
Proof. pose proof (half_power 100). apply (near_fsub 0); [exact Db | exact Da | lra | apply near_0]. Qed.
Lemma length_big : big 100 (fsub b a).
Proof. apply big_rnd; [lia | right; exact Hl]. Qed.
Lemma length_inverse : big 100 (/ fsub b a).
Proof.
  right. pose proof (half_power 100) as P. assert (E : fsub b a <= 2 ^ 100).
  { assert (D : double (2 ^ 100)). { replace (2 ^ 100) with (bpow radix2 100) by (rewrite bpow_powerRZ; change 100%Z with (Z.of_nat 100); rewrite <- pow_powerRZ; reflexivity). apply generic_format_bpow. unfold binary64, FLT_exp. lia. }
    rewrite <- (rnd_id _ D). apply rnd_le. exact Hh. }
  destruct length_big as [Z | B].
  - exfalso. pose proof length_near as [N _]. rewrite Z in N. pose proof (low_pos 1) as [Q _]. assert (0 < (1 - u_) ^ 1 * (b - a)) by (apply Rmult_lt_0_compat; lra). lra.
  - apply Rinv_le_contravar; [lra | exact E].
Qed.
Lemma abs_square_big e x : zero_or_large x -> (100 = e)%nat -> big (e + e) (x * x).
Proof.
  intros H <-. replace (x * x) with (Rabs x * Rabs x) by (rewrite <- Rabs_mult; apply Rabs_pos_eq, Rle_0_sqr).
  apply big_mul; (destruct H as [-> | H]; [left; apply Rabs_R0 | right; exact H]).
Qed.
Lemma dissipation_big : big 100 (f_dissipation c).
Proof. destruct (fc_dissipation c F) as [P [H | H]]; [left; exact H | right]. rewrite Rabs_pos_eq in H by exact P. exact H. Qed.
Lemma rate_penalty_near l r : near 6 (rate_penalty l r (fsub b a) c) (rates_cost (f_dissipation c) (b - a) (entry (f_rates c) l) (entry (f_rates c) r)).
Proof.
  pose proof (half_power 100) as P. destruct (fc_dissipation c F) as [Pd _]. pose proof dissipation_big as Bd. pose proof length_near as Nl. pose proof length_big as Bl.
  set (x := entry (f_rates c) l). set (y := entry (f_rates c) r).
  assert (Bx : big 200 (x * x)) by (apply (abs_square_big 100); [apply (fc_rates c F) | reflexivity]). assert (By : big 200 (y * y)) by (apply (abs_square_big 100); [apply (fc_rates c F) | reflexivity]).
  assert (S : forall z, big 200 (z * z) -> near 1 (fmul z z) (z * z)).
  { intros z Bz. apply near_fmul; [destruct (big_more 200 1000 _ ltac:(lia) Bz) as [E | E]; [left | right]; exact E | nra | apply near_0]. }
  assert (N2 : near 2 (fadd (fmul x x) (fmul y y)) (x * x + y * y)).
  { apply near_fadd; [apply rnd_double | apply rnd_double | nra|]. apply near_sum; apply S; assumption. }
  assert (B2 : big 200 (fadd (fmul x x) (fmul y y))) by (apply big_rnd; [lia|]; apply big_add; apply big_rnd; (lia || assumption)).
  assert (Bh : big 1 (1 / 2)) by (right; simpl; lra).
  assert (N1 : near 1 (fmul (1 / 2) (f_dissipation c)) (1 / 2 * f_dissipation c)) by (apply (fmul_near 1 100 0 0); [lia | exact Bh | exact Bd | lra | exact Pd | apply near_0 | apply near_0]).
  assert (B1 : big 101 (fmul (1 / 2) (f_dissipation c))) by (apply (big_fmul 1 100); [lia | exact Bh | exact Bd]).
  assert (N4 : near 4 (fmul (fmul (1 / 2) (f_dissipation c)) (fadd (fmul x x) (fmul y y))) (1 / 2 * f_dissipation c * (x * x + y * y))).
  { apply (fmul_near 101 200 1 2); [lia | exact B1 | exact B2 | lra | nra | exact N1 | exact N2]. }
  assert (B4 : big 301 (fmul (fmul (1 / 2) (f_dissipation c)) (fadd (fmul x x) (fmul y y)))) by (apply (big_fmul 101 200); [lia | exact B1 | exact B2]).
  replace (rates_cost (f_dissipation c) (b - a) x y) with (1 / 2 * f_dissipation c * (x * x + y * y) * (b - a)) by (unfold rates_cost; field).
  apply (fmul_near 301 100 4 1); [lia | exact B4 | exact Bl | | lra | exact N4 | exact Nl]. apply Rmult_le_pos; nra.
Qed.
Lemma value_penalty_near l r : near 12 (value_penalty l r (fsub b a) c) (slope_cost (f_dissipation c) (b - a) (entry (f_values c) l) (entry (f_values c) r)).
Proof.
  pose proof (half_power 100) as P. destruct (fc_dissipation c F) as [Pd _]. destruct (fc_doubles c F) as (_ & Dv & _). pose proof dissipation_big as Bd. pose proof length_near as Nl. pose proof length_big as Bl. pose proof length_inverse as Bi.
  set (x := entry (f_values c) l). set (y := entry (f_values c) r).
  assert (Nd : near 1 (Rabs (fsub y x)) (Rabs (y - x))) by (apply fsub_abs; apply entry_double; exact Dv).
  assert (B0 : big 100 (Rabs (y - x))) by (destruct (fc_values c F r l) as [E | E]; [left; fold x y in E; rewrite E; apply Rabs_R0 | right; exact E]).
  assert (Bd0 : big 100 (Rabs (fsub y x))) by (unfold fsub; rewrite rnd_abs; apply big_rnd; [lia | exact B0]).
  assert (Ni : near 2 (/ fsub b a) (/ (b - a))) by (apply (near_inv 1); [lra | exact Nl]).
  set (q := fdiv (fsub y x) (fsub b a)). set (t := Rabs (y - x) * / (b - a)).
  assert (Pt : 0 <= t) by (apply Rmult_le_pos; [apply Rabs_pos | left; apply Rinv_0_lt_compat; lra]).
  assert (Eq : Rabs q = fmul (Rabs (fsub y x)) (/ fsub b a)).
  { unfold q, fdiv, fmul, Rdiv. rewrite rnd_abs, Rabs_mult, (Rabs_pos_eq (/ fsub b a)); [reflexivity | exact (big_pos _ _ Bi)]. }
  assert (Nq : near 4 (Rabs q) t) by (rewrite Eq; apply (fmul_near 100 100 1 2); [lia | exact Bd0 | exact Bi | apply Rabs_pos | left; apply Rinv_0_lt_compat; lra | exact Nd | exact Ni]).
  assert (Bq : big 200 (Rabs q)) by (rewrite Eq; apply (big_fmul 100 100); [lia | exact Bd0 | exact Bi]).
  assert (Es : fmul q q = fmul (Rabs q) (Rabs q)) by (unfold fmul; f_equal; rewrite <- Rabs_mult; symmetry; apply Rabs_pos_eq, Rle_0_sqr).
  assert (N9 : near 9 (fmul q q) (t * t)) by (rewrite Es; apply (fmul_near 200 200 4 4); [lia | exact Bq | exact Bq | exact Pt | exact Pt | exact Nq | exact Nq]).
  assert (B9 : big 400 (fmul q q)) by (rewrite Es; apply (big_fmul 200 200); [lia | exact Bq | exact Bq]).
  assert (N10 : near 10 (fmul (f_dissipation c) (fmul q q)) (f_dissipation c * (t * t))) by (apply (fmul_near 100 400 0 9); [lia | exact Bd | exact B9 | exact Pd | nra | apply near_0 | exact N9]).
  assert (B10 : big 500 (fmul (f_dissipation c) (fmul q q))) by (apply (big_fmul 100 400); [lia | exact Bd | exact B9]).
  replace (slope_cost (f_dissipation c) (b - a) x y) with (f_dissipation c * (t * t) * (b - a)).
  - apply (fmul_near 500 100 10 1); [lia | exact B10 | exact Bl | | lra | exact N10 | exact Nl]. apply Rmult_le_pos; nra.
  - unfold slope_cost, t. replace (Rabs (y - x) * / (b - a) * (Rabs (y - x) * / (b - a))) with (Rabs (y - x) * Rabs (y - x) * (/ (b - a) * / (b - a))) by ring.
    rewrite <- Rabs_mult, (Rabs_pos_eq ((y - x) * (y - x))) by apply Rle_0_sqr. unfold Rdiv. ring.
Qed.
Lemma rates_cost_pos l r : 0 <= rates_cost (f_dissipation c) (b - a) l r.
Proof. pose proof (half_power 100). destruct (fc_dissipation c F) as [Pd _]. unfold rates_cost. apply Rmult_le_pos; [|lra]. apply Rmult_le_pos; [lra|]. simpl. nra. Qed.
Lemma slope_cost_pos l r : 0 <= slope_cost (f_dissipation c) (b - a) l r.
Proof. pose proof (half_power 100). destruct (fc_dissipation c F) as [Pd _]. unfold slope_cost. apply Rmult_le_pos; [|lra]. apply Rmult_le_pos; [exact Pd|]. apply pow2_ge_0. Qed.
End Element.

(** ** Sums *)
Definition term_near (k : nat) (t : R * R) : Prop := is_double (fst t) /\ 0 <= snd t /\ near k (fst t) (snd t).
Lemma add_all_near k l : forall x y, is_double x -> 0 <= y -> near k x y -> Forall (term_near k) l -> near (k + length l) (add_all x (map fst l)) (y + sum (map snd l)).
Proof.
  revert k. induction l as [|[a b] l IH]; intros k x y Dx Py N F; [cbn; rewrite Nat.add_0_r, Rplus_0_r; exact N|].
  apply Forall_cons_iff in F. destruct F as [(Da & Pb & Na) F]. cbn [fst snd] in *. unfold add_all, sum in *. cbn [map fold_left fold_right fst snd length].
  replace (k + S (length l))%nat with (S k + length l)%nat by lia. rewrite <- Rplus_assoc. apply IH; [apply rnd_double | lra | apply near_fadd; [exact Dx | exact Da | lra | apply near_sum; assumption]|].
  apply (Forall_impl _ (P := term_near k)); [|exact F]. intros t (D & Q & M). split; [exact D|]. split; [exact Q | apply (near_more k); [exact Q | lia | exact M]].
Qed.
Lemma sum_app l m : sum (l ++ m) = sum l + sum m.
Proof. unfold sum. induction l as [|a l IH]; cbn [app fold_right]; [ring | rewrite IH; ring]. Qed.
Lemma sum_plus {A} (f g : A -> R) l : sum (map (fun x => f x + g x) l) = sum (map f l) + sum (map g l).
Proof. unfold sum. induction l as [|a l IH]; cbn [map fold_right]; [ring | rewrite IH; ring]. Qed.
Lemma sum_zero {A} (l : list A) : sum (map (fun _ => 0) l) = 0.
Proof. unfold sum. induction l as [|a l IH]; cbn [map fold_right]; [ring | rewrite IH; ring]. Qed.
Lemma sum_rows {A B} (e : A -> R) (f : B -> A -> R) cs is : sum (flat_map (fun i => e i :: map (fun c => f c i) cs) is) = sum (map e is) + sum (map (fun c => sum (map (f c) is)) cs).
Proof.
  induction is as [|i is IH]; cbn [flat_map map]; [change (sum []) with 0; rewrite sum_zero; ring|]. 
  change (e i :: map (fun c => f c i) cs) with ([e i] ++ map (fun c => f c i) cs). rewrite !sum_app, IH. 
  assert (E : sum (map (fun c => sum (f c i :: map (f c) is)) cs) = sum (map (fun c => f c i) cs) + sum (map (fun c => sum (map (f c) is)) cs)) by (rewrite <- sum_plus; reflexivity).
  rewrite E. unfold sum; cbn [fold_right]. ring.
Qed.
Lemma sum_columns {A B} (f : B -> A -> R) cs is : sum (flat_map (fun c => map (f c) is) cs) = sum (map (fun c => sum (map (f c) is)) cs).
Proof. induction cs as [|c cs IH]; [reflexivity|]. cbn [flat_map map]. rewrite sum_app, IH. reflexivity. Qed.
Lemma map_flat {A B C} (f : B -> C) (g : A -> list B) l : map f (flat_map g l) = flat_map (fun x => map f (g x)) l.
Proof. induction l as [|a l IH]; [reflexivity|]. cbn [flat_map]. rewrite map_app, IH. reflexivity. Qed.

(** ** The theorems *)
Section Lap.
Context (closed : bool) (sigma L : R) (s d : list R) (H : forward_lap closed sigma L s d) (Hn : not_tiny closed sigma L s d) (cs : list full_control) (Hc : Forall fair_control cs).

Lemma element_near swap a b l r : is_double a -> is_double b -> / 2 ^ 100 <= b - a -> / 2 ^ 100 <= at_ d l -> / 2 ^ 100 <= at_ d r ->
  term_near 12 (element sigma d swap l r (fsub b a), exact_element sigma (b - a) (at_ d l) (at_ d r)).
Proof.
  intros Da Db Hl Dl Dr. pose proof (half_power 100) as P. destruct (lap_entries _ _ _ _ _ H) as [_ D]. pose proof (fl_sigma _ _ _ _ _ H) as Hs.
  assert (Q : 0 <= exact_element sigma (b - a) (at_ d l) (at_ d r)) by (apply exact_element_pos; lra).
  split; [apply rnd_double|]. split; [exact Q|]. cbn [fst snd].
  pose proof (piece_near closed sigma L s d H a b (at_ d l) (at_ d r) Da Db (D l) (D r) (nt_sigma _ _ _ _ _ Hn) Hl Dl Dr) as N.
  apply (near_more 5); [exact Q | lia|]. destruct swap; [exact N|]. unfold element. rewrite fadd_comm. exact N.
Qed.
Lemma inner i : In i (seq 1 (length s - 1)) -> is_double (at_ s (i - 1)) /\ is_double (at_ s i) /\ / 2 ^ 100 <= at_ s i - at_ s (i - 1) /\ / 2 ^ 100 <= at_ d (i - 1) /\ / 2 ^ 100 <= at_ d i.
Proof.
  intros Hi. apply in_seq in Hi. destruct (lap_entries _ _ _ _ _ H) as [D _]. split; [apply D|]. split; [apply D|].
  pose proof (nt_steps _ _ _ _ _ Hn (i - 1) ltac:(lia)) as A. replace (S (i - 1)) with i in A by lia. split; [exact A|]. split; apply (nt_rates _ _ _ _ _ Hn); lia.
Qed.
Lemma outer : closed = true -> is_double (at_ s (last_ s)) /\ is_double L /\ / 2 ^ 100 <= L - at_ s (last_ s) /\ / 2 ^ 100 <= at_ d (last_ s) /\ / 2 ^ 100 <= at_ d 0.
Proof.
  intros E. destruct (fl_sizes _ _ _ _ _ H) as [S0 _]. destruct (lap_entries _ _ _ _ _ H) as [D _]. destruct (fl_doubles _ _ _ _ _ H) as (_ & DL & _). split; [apply D|]. split; [exact DL|]. split; [apply (nt_end _ _ _ _ _ Hn), E|].
  unfold last_. split; apply (nt_rates _ _ _ _ _ Hn); lia.
Qed.
Lemma shifted (f : nat -> R) (g : nat -> R) k : (forall i, f (S i) = g i) -> sum (map f (seq 1 k)) = sum (map g (seq 0 k)).
Proof. intros E. rewrite <- seq_shift, map_map. f_equal. apply map_ext. exact E. Qed.
Lemma lap_time : exact_laptime closed sigma L s d 0 =
  sum (map (fun i => exact_element sigma (at_ s i - at_ s (i - 1)) (at_ d (i - 1)) (at_ d i)) (seq 1 (length s - 1))) +
  if closed then exact_element sigma (L - at_ s (last_ s)) (at_ d (last_ s)) (at_ d 0) else 0.
Proof.
  unfold exact_laptime, exact_time. cbv zeta. rewrite Rplus_0_l. f_equal. symmetry. apply (shifted _ (fun i => exact_element sigma (entry s (S i) - entry s i) (entry d i) (entry d (S i)))).
  intros i. cbn [Nat.sub]. rewrite Nat.sub_0_r. reflexivity.
Qed.
Lemma enough n m (t : list (R * R)) x y : (length t <= n * S m)%nat -> INR (n * S m + 12) <= 2 ^ 52 -> Forall (term_near 12) t -> add_all 0 (map fst t) = x -> sum (map snd t) = y ->
  Rabs (x - y) <= INR (n * S m + 12) / 2 ^ 52 * y.
Proof.
  intros Hl Hs F <- <-. assert (P : 0 <= sum (map snd t)).
  { clear Hl. induction F as [|a t (_ & Pa & _) F IH]; unfold sum in *; cbn [map fold_right]; lra. }
  pose proof (add_all_near 12 t 0 0 double_0 (Rle_refl 0) (near_more 0 12 0 0 (Rle_refl 0) ltac:(lia) (near_0 0)) F) as N. rewrite Rplus_0_l in N.
  apply (near_more _ (n * S m + 12)) in N; [|exact P | lia].
  assert (EU : INR (n * S m + 12) / 2 ^ 52 = 2 * INR (n * S m + 12) * u_) by (unfold u_; field).
  rewrite EU. apply near_error; [exact P | rewrite <- EU | exact N].
  apply Rmult_le_reg_r with (2 ^ 52); [lra|]. unfold Rdiv. rewrite Rmult_assoc, Rinv_l by lra. lra.
Qed.

(** What the derivative formulation minimises differs from its value without rounding by less than (n (m + 1) + 12) / 2^52 of it, for [n] points and [m] controls. *)
Lemma derivative_value : INR (length s * S (length cs) + 12) <= 2 ^ 52 ->
  Rabs (objective_derivative sigma L s d closed cs - exact_derivative closed sigma L s d cs) <= INR (length s * S (length cs) + 12) / 2 ^ 52 * exact_derivative closed sigma L s d cs.
Proof.
  intros Hs. destruct (fl_sizes _ _ _ _ _ H) as [S0 _].
  set (P := fun i (c : full_control) => (rate_penalty (i - i) i (step_ s i) c, rates_cost (f_dissipation c) (at_ s i - at_ s (i - 1)) (at_ (f_rates c) 0) (at_ (f_rates c) i))).
  set (E := fun i => (element sigma d false (i - 1) i (step_ s i), exact_element sigma (at_ s i - at_ s (i - 1)) (at_ d (i - 1)) (at_ d i))).
  set (Z := if closed then (element sigma d false (last_ s) 0 (fsub L (at_ s (last_ s))), exact_element sigma (L - at_ s (last_ s)) (at_ d (last_ s)) (at_ d 0)) ::
    map (fun c => (rate_penalty (last_ s) 0 (fsub L (at_ s (last_ s))) c, rates_cost (f_dissipation c) (L - at_ s (last_ s)) (at_ (f_rates c) (last_ s)) (at_ (f_rates c) 0))) cs else []).
  apply (enough (length s) (length cs) (flat_map (fun i => E i :: map (P i) cs) (seq 1 (length s - 1)) ++ Z)).
  - rewrite app_length. assert (A : forall l, length (flat_map (fun i => E i :: map (P i) cs) l) = (length l * S (length cs))%nat).
    { induction l as [|i l IH]; [reflexivity|]. cbn [flat_map]. rewrite app_length, IH. cbn [length]. rewrite map_length. lia. }
    rewrite A, seq_length. assert (B : (length Z <= S (length cs))%nat) by (unfold Z; destruct closed; cbn [length]; rewrite ?map_length; lia).
    assert (C : (length s * S (length cs) = (length s - 1) * S (length cs) + S (length cs))%nat) by (destruct (length s) as [|k]; [lia | rewrite Nat.sub_succ, Nat.sub_0_r; lia]). rewrite C. apply Nat.add_le_mono_l, B.
  - exact Hs.
  - apply Forall_app. split.
    + apply Forall_flat_map, Forall_forall. intros i Hi. destruct (inner i Hi) as (D1 & D2 & I1 & I2 & I3). apply Forall_cons; [apply element_near; assumption|].
      apply Forall_map, (Forall_impl _ (P := fair_control)); [|exact Hc]. intros c F. split; [apply rnd_double|]. cbn [P fst snd]. split; [apply rates_cost_pos; assumption|].
      apply (near_more 6); [apply rates_cost_pos; assumption | lia|]. pose proof (rate_penalty_near c F _ _ D1 D2 I1 (i - i) i) as N. rewrite Nat.sub_diag in N |- * . exact N.
    + assert (W : closed = true -> Forall (term_near 12) Z); [|unfold Z in *; destruct closed; [apply W; reflexivity | constructor]].
      intros Ec. unfold Z. rewrite Ec at 1. destruct (outer Ec) as (D1 & D2 & I1 & I2 & I3). apply Forall_cons; [apply element_near; assumption|].
      apply Forall_map, (Forall_impl _ (P := fair_control)); [|exact Hc]. intros c F. split; [apply rnd_double|]. cbn [fst snd]. split; [apply rates_cost_pos; assumption|].
      apply (near_more 6); [apply rates_cost_pos; assumption | lia|]. exact (rate_penalty_near c F _ _ D1 D2 I1 (last_ s) 0).
  - rewrite map_app, map_flat. unfold objective_derivative. cbv zeta. f_equal. f_equal.
    + apply flat_map_ext. intros i. cbn [map fst]. f_equal. rewrite map_map. reflexivity.
    + unfold Z. destruct closed; [|reflexivity]. cbn [map fst]. f_equal. rewrite map_map. reflexivity.
  - rewrite map_app, sum_app, map_flat. unfold exact_derivative. cbv zeta. rewrite lap_time.
    assert (A : sum (flat_map (fun i => map snd (E i :: map (P i) cs)) (seq 1 (length s - 1))) = sum (flat_map (fun i => snd (E i) :: map (fun c => snd (P i c)) cs) (seq 1 (length s - 1)))).
    { f_equal. apply flat_map_ext. intros i. cbn [map]. f_equal. apply map_map. }
    rewrite A, (sum_rows (fun i => snd (E i)) (fun c i => snd (P i c))). clear A. rewrite sum_plus. 
    assert (B : sum (map snd Z) = (if closed then exact_element sigma (L - at_ s (last_ s)) (at_ d (last_ s)) (at_ d 0) else 0) +
      sum (map (fun c => if closed then rates_cost (f_dissipation c) (L - entry s (length s - 1)) (entry (f_rates c) (length s - 1)) (entry (f_rates c) 0) else 0) cs)).
    { unfold Z. destruct closed; [|rewrite sum_zero; unfold sum; cbn; ring]. cbn [map snd]. rewrite map_map. reflexivity. }
    rewrite B. assert (C : forall c, sum (map (fun i => snd (P i c)) (seq 1 (length s - 1))) =
      sum (map (fun i => rates_cost (f_dissipation c) (entry s (S i) - entry s i) (entry (f_rates c) 0) (entry (f_rates c) (S i))) (seq 0 (length s - 1)))).
    { intros c. apply shifted. intros i. cbn [P snd Nat.sub]. rewrite Nat.sub_0_r. reflexivity. }
    rewrite (map_ext _ _ C). cbn [E snd]. ring.
Qed.
(** The same for the direct formulation. *)
Lemma direct_value : not_huge closed L s -> INR (length s * S (length cs) + 12) <= 2 ^ 52 ->
  Rabs (objective_direct sigma L s d closed cs - exact_direct closed sigma L s d cs) <= INR (length s * S (length cs) + 12) / 2 ^ 52 * exact_direct closed sigma L s d cs.
Proof.
  intros [Hh1 Hh2] Hs. destruct (fl_sizes _ _ _ _ _ H) as [S0 _].
  set (P := fun (c : full_control) i => (value_penalty (i - 1) i (step_ s i) c, slope_cost (f_dissipation c) (at_ s i - at_ s (i - 1)) (at_ (f_values c) (i - 1)) (at_ (f_values c) i))).
  set (E := fun i => (element sigma d false (i - 1) i (step_ s i), exact_element sigma (at_ s i - at_ s (i - 1)) (at_ d (i - 1)) (at_ d i))).
  set (Z := if closed then (element sigma d true (last_ s) 0 (fsub L (at_ s (last_ s))), exact_element sigma (L - at_ s (last_ s)) (at_ d (last_ s)) (at_ d 0)) ::
    map (fun c => (value_penalty (last_ s) 0 (fsub L (at_ s (last_ s))) c, slope_cost (f_dissipation c) (L - at_ s (last_ s)) (at_ (f_values c) (last_ s)) (at_ (f_values c) 0))) cs else []).
  apply (enough (length s) (length cs) (map E (seq 1 (length s - 1)) ++ flat_map (fun c => map (P c) (seq 1 (length s - 1))) cs ++ Z)).
  - rewrite !app_length, map_length, seq_length. assert (A : forall l, length (flat_map (fun c => map (P c) (seq 1 (length s - 1))) l) = (length l * (length s - 1))%nat).
    { induction l as [|i l IH]; [reflexivity|]. cbn [flat_map]. rewrite app_length, IH, map_length, seq_length. cbn [length]. lia. }
    rewrite A. assert (B : (length Z <= S (length cs))%nat) by (unfold Z; destruct closed; cbn [length]; rewrite ?map_length; lia).
    assert (C : (length s * S (length cs) = (length s - 1) + length cs * (length s - 1) + S (length cs))%nat) by (destruct (length s) as [|k]; [lia | rewrite Nat.sub_succ, Nat.sub_0_r; lia]). lia.
  - exact Hs.
  - apply Forall_app. split; [|apply Forall_app; split].
    + apply Forall_map, Forall_forall. intros i Hi. destruct (inner i Hi) as (D1 & D2 & I1 & I2 & I3). apply element_near; assumption.
    + apply Forall_flat_map, (Forall_impl _ (P := fair_control)); [|exact Hc]. intros c F. apply Forall_map, Forall_forall. intros i Hi. destruct (inner i Hi) as (D1 & D2 & I1 & I2 & I3).
      assert (I4 : at_ s i - at_ s (i - 1) <= 2 ^ 100). { apply in_seq in Hi. pose proof (Hh1 (i - 1)%nat ltac:(lia)) as A. replace (S (i - 1)) with i in A by lia. exact A. }
      split; [apply rnd_double|]. cbn [P fst snd]. split; [apply slope_cost_pos; assumption|]. exact (value_penalty_near c F _ _ D1 D2 I1 I4 (i - 1) i).
    + assert (W : closed = true -> Forall (term_near 12) Z); [|unfold Z in *; destruct closed; [apply W; reflexivity | constructor]].
      intros Ec. unfold Z. rewrite Ec at 1. destruct (outer Ec) as (D1 & D2 & I1 & I2 & I3). apply Forall_cons; [apply element_near; assumption|].
      apply Forall_map, (Forall_impl _ (P := fair_control)); [|exact Hc]. intros c F. split; [apply rnd_double|]. cbn [fst snd]. split; [apply slope_cost_pos; assumption|].
      exact (value_penalty_near c F _ _ D1 D2 I1 (Hh2 Ec) (last_ s) 0).
  - rewrite !map_app, map_flat. unfold objective_direct. cbv zeta. f_equal. f_equal; [rewrite map_map; reflexivity|]. f_equal.
    + apply flat_map_ext. intros c. rewrite map_map. reflexivity.
    + unfold Z. destruct closed; [|reflexivity]. cbn [map fst]. f_equal. rewrite map_map. reflexivity.
  - rewrite !map_app, !sum_app, map_flat, map_map. unfold exact_direct. cbv zeta. rewrite lap_time.
    assert (A : sum (flat_map (fun c => map snd (map (P c) (seq 1 (length s - 1)))) cs) = sum (flat_map (fun c => map (fun i => snd (P c i)) (seq 1 (length s - 1))) cs)).
    { f_equal. apply flat_map_ext. intros i. apply map_map. }
    rewrite A, (sum_columns (fun c i => snd (P c i))). clear A. rewrite sum_plus. 
    assert (B : sum (map snd Z) = (if closed then exact_element sigma (L - at_ s (last_ s)) (at_ d (last_ s)) (at_ d 0) else 0) +
      sum (map (fun c => if closed then slope_cost (f_dissipation c) (L - entry s (length s - 1)) (entry (f_values c) (length s - 1)) (entry (f_values c) 0) else 0) cs)).
    { unfold Z. destruct closed; [|rewrite sum_zero; unfold sum; cbn; ring]. cbn [map snd]. rewrite map_map. reflexivity. }
    rewrite B. assert (C : forall c, sum (map (fun i => snd (P c i)) (seq 1 (length s - 1))) =
      sum (map (fun i => slope_cost (f_dissipation c) (entry s (S i) - entry s i) (entry (f_values c) i) (entry (f_values c) (S i))) (seq 0 (length s - 1)))).
    { intros c. apply shifted. intros i. cbn [P snd Nat.sub]. rewrite Nat.sub_0_r. reflexivity. }
    rewrite (map_ext _ _ C). cbn [E snd]. ring.
Qed.
End Lap.

(** What the solver minimises differs from its value without rounding by less than (n (m + 1) + 12) / 2^52 of it, for [n] points and [m] controls, in both formulations. *)
Theorem C150_minimised closed sigma L s d cs : forward_lap closed sigma L s d -> not_tiny closed sigma L s d -> not_huge closed L s -> Forall fair_control cs ->
  let most := INR (length s * S (length cs) + 12) / 2 ^ 52 in most <= 1 ->
  Rabs (objective_direct sigma L s d closed cs - exact_direct closed sigma L s d cs) <= most * exact_direct closed sigma L s d cs /\
  Rabs (objective_derivative sigma L s d closed cs - exact_derivative closed sigma L s d cs) <= most * exact_derivative closed sigma L s d cs.
Proof.
  intros H Hn Hh Hc most Hm. assert (Hs : INR (length s * S (length cs) + 12) <= 2 ^ 52).
  { apply Rmult_le_reg_r with (/ 2 ^ 52); [apply Rinv_0_lt_compat, pow_lt; lra|]. rewrite Rinv_r by (apply pow_nonzero; lra). exact Hm. }
  split; [apply direct_value; assumption | apply derivative_value; assumption].
Qed.

(** The small lap of C150 with a control that is moved, and one that is not penalised. *)
Example C150_minimised_case : let cs := [FullControl 1 [0; 1; 0] [1; 0; 1]; FullControl 0 [0; 1; 0] [1; 1; 1]] in
  forward_lap true (1 / 2) 16 small_s small_d /\ not_tiny true (1 / 2) 16 small_s small_d /\ not_huge true 16 small_s /\ Forall fair_control cs /\
  INR (length small_s * S (length cs) + 12) / 2 ^ 52 <= 1 /\
  exact_direct true (1 / 2) 16 small_s small_d cs = 33 / 64 + (1 / 4 + 1 / 6) /\ exact_derivative true (1 / 2) 16 small_s small_d cs = 33 / 64 + (2 + 6 + 6).
Proof.
  intros cs. destruct C150_case as (F & N & _ & E & _). split; [exact F|]. split; [exact N|].
  assert (D0 : is_double 0) by exact double_0. assert (D1 : is_double 1) by exact double_1.
  assert (Z : forall x, x = 0 \/ x = 1 \/ x = - (1) -> zero_or_large x).
  { intros x [-> | H]; [left; reflexivity | right]. apply tiny_le. destruct H as [-> | ->]; [rewrite Rabs_R1; lra | rewrite Rabs_Ropp, Rabs_R1; lra]. }
  assert (B : 1000 <= 2 ^ 100) by (apply Rle_trans with (2 ^ 10); [lra | apply Rle_pow; [lra | lia]]).
  split. { split; [intros [|[|i]] Hi; cbn [small_s entry nth]; try lra; cbn in Hi; lia | intros _; cbn [small_s entry nth length Nat.sub]; lra]. }
  split.
  { assert (V : forall i, entry [0; 1; 0] i = 0 \/ entry [0; 1; 0] i = 1) by (intros [|[|[|[|i]]]]; cbn; auto).
    assert (W : forall i j, zero_or_large (entry [0; 1; 0] i - entry [0; 1; 0] j)) by (intros i j; apply Z; destruct (V i) as [-> | ->], (V j) as [-> | ->]; [left | right; right | right; left | left]; lra).
    apply Forall_cons; [|apply Forall_cons; [|apply Forall_nil]]; (split; cbn [f_dissipation f_values f_rates]; 
      [split; [assumption|]; split; repeat (apply Forall_cons; [assumption|]); apply Forall_nil | split; [lra | apply Z; auto] | intros [|[|[|[|i]]]]; apply Z; cbn; auto | exact W]). }
  split. { apply Rmult_le_reg_r with (2 ^ 52); [lra|]. unfold Rdiv. rewrite Rmult_assoc, Rinv_l by lra. cbn [length small_s cs Nat.mul Nat.add]. simpl INR. lra. }
  unfold exact_direct, exact_derivative. rewrite E. split; unfold sum, slope_cost, rates_cost; cbn; field.
Qed.

Print Assumptions C150_minimised.
