(** The time of a lap in double precision: it never goes back, it is the quadrature up to the rounding of its operations, and it is
    what the solver minimises. *)
From Coq Require Import Reals ZArith Lia Lra List Arith.
From Flocq Require Import Core Relative Plus_error.
From Verif Require Import S_Rounded M_Rounded L_Rounded S_RoundedTime M_RoundedTime.
Import ListNotations.
Local Open Scope R_scope.

(** ** Roundings *)
Lemma fadd_grows : forall x y, is_double x -> 0 <= y -> x <= fadd x y.
Proof. intros x y Hx Hy. rewrite <- (rnd_id x Hx) at 1. apply rnd_le. lra. Qed.
Lemma fmul_pos : forall x y, 0 <= x -> 0 <= y -> 0 <= fmul x y.
Proof. intros x y Hx Hy. apply rnd_ge_0. apply Rmult_le_pos; assumption. Qed.
Lemma fadd_pos : forall x y, 0 <= x -> 0 <= y -> 0 <= fadd x y.
Proof. intros x y Hx Hy. apply rnd_ge_0. lra. Qed.
Lemma fsub_pos : forall x y, y <= x -> 0 <= fsub x y.
Proof. intros x y H. apply rnd_ge_0. lra. Qed.
Lemma fsq_pos : forall x, 0 <= fmul x x.
Proof. intros x. apply rnd_ge_0. nra. Qed.
Lemma fadd_comm : forall x y, fadd x y = fadd y x.
Proof. intros x y. unfold fadd. rewrite Rplus_comm. reflexivity. Qed.
Lemma fadd_0 : forall x, is_double x -> fadd x 0 = x.
Proof. intros x Hx. unfold fadd. rewrite Rplus_0_r. apply rnd_id. exact Hx. Qed.
Lemma fmul_0_l : forall x, fmul 0 x = 0.
Proof. intros x. unfold fmul. rewrite Rmult_0_l. apply rnd_0. Qed.
Lemma fmul_0_r : forall x, fmul x 0 = 0.
Proof. intros x. unfold fmul. rewrite Rmult_0_r. apply rnd_0. Qed.

(** Half a unit in the last place of 1. *)
Definition u_ : R := / 2 ^ 53.
Lemma u_small : 0 < u_ < 1 / 2.
Proof. unfold u_. split; [apply Rinv_0_lt_compat; lra|lra]. Qed.

(** [x] is [y] up to [k] roundings. *)
Definition near (k : nat) (x y : R) : Prop := (1 - u_) ^ k * y <= x <= (1 + u_) ^ k * y.
Lemma near_0 : forall x, near 0 x x.
Proof. intros x. unfold near. simpl. lra. Qed.
Lemma low_pos : forall k, 0 < (1 - u_) ^ k <= 1.
Proof. pose proof u_small. induction k; simpl; [lra|]. split; [apply Rmult_lt_0_compat; lra|nra]. Qed.
Lemma high_pos : forall k, 1 <= (1 + u_) ^ k.
Proof. pose proof u_small. induction k; simpl; [lra|nra]. Qed.
Lemma near_more : forall k j x y, 0 <= y -> (k <= j)%nat -> near k x y -> near j x y.
Proof.
  intros k j x y Hy Hkj [H1 H2]. pose proof u_small. unfold near. replace j with (k + (j - k))%nat by lia. rewrite !pow_add.
  pose proof (low_pos k). pose proof (low_pos (j - k)). pose proof (high_pos k). pose proof (high_pos (j - k)).
  assert (0 <= (1 - u_) ^ k * y) by (apply Rmult_le_pos; lra). assert (0 <= (1 + u_) ^ k * y) by (apply Rmult_le_pos; lra).
  split; [apply Rle_trans with (2 := H1)|apply Rle_trans with (1 := H2)]; nra.
Qed.
Lemma near_sum : forall k x y x' y', near k x y -> near k x' y' -> near k (x + x') (y + y').
Proof. intros k x y x' y' [] []. split; lra. Qed.
Lemma near_nonneg : forall k x y, 0 <= y -> near k x y -> 0 <= x.
Proof. intros k x y Hy [H _]. pose proof (low_pos k). apply Rle_trans with (2 := H). apply Rmult_le_pos; lra. Qed.
Lemma near_prod : forall k j x y x' y', 0 <= y -> 0 <= y' -> near k x y -> near j x' y' -> near (k + j) (x * x') (y * y').
Proof.
  intros k j x y x' y' Hy Hy' H H'. pose proof (near_nonneg _ _ _ Hy H). pose proof (near_nonneg _ _ _ Hy' H').
  destruct H as [A B]. destruct H' as [C D]. pose proof (low_pos k). pose proof (low_pos j). pose proof (high_pos k). pose proof (high_pos j).
  unfold near. rewrite !pow_add. split.
  - replace ((1 - u_) ^ k * (1 - u_) ^ j * (y * y')) with (((1 - u_) ^ k * y) * ((1 - u_) ^ j * y')) by ring.
    apply Rmult_le_compat; try assumption; apply Rmult_le_pos; lra.
  - replace ((1 + u_) ^ k * (1 + u_) ^ j * (y * y')) with (((1 + u_) ^ k * y) * ((1 + u_) ^ j * y')) by ring.
    apply Rmult_le_compat; assumption.
Qed.
(** One more rounding. *)
Lemma near_rounded : forall k x x' y e, 0 <= y -> near k x y -> x' = x * (1 + e) -> Rabs e <= u_ -> near (S k) x' y.
Proof.
  intros k x x' y e Hy H -> He. pose proof (near_nonneg _ _ _ Hy H). destruct H as [A B]. pose proof u_small.
  apply Rabs_le_inv in He. unfold near. simpl. split.
  - apply Rle_trans with ((1 - u_) * x); [rewrite Rmult_assoc; apply Rmult_le_compat_l; lra|nra].
  - apply Rle_trans with ((1 + u_) * x); [nra|rewrite Rmult_assoc; apply Rmult_le_compat_l; lra].
Qed.

Lemma u_ro_53 : u_ro radix2 53 = u_.
Proof. unfold u_ro, u_. simpl. lra. Qed.
(** The sum of two doubles is rounded with a relative error, even below the normal numbers. *)
Lemma near_fadd : forall k a b y, is_double a -> is_double b -> 0 <= y -> near k (a + b) y -> near (S k) (fadd a b) y.
Proof.
  intros k a b y Ha Hb Hy H. pose proof u_small.
  destruct (FLT_plus_error_N_ex radix2 (-1074) 53 (fun x => negb (Z.even x)) a b Ha Hb) as [e [He E]].
  apply (near_rounded k (a + b) (fadd a b) y e Hy H E). rewrite u_ro_53 in He. apply Rle_trans with (1 := He).
  apply Rmult_le_reg_r with (1 + u_); [lra|]. unfold Rdiv. rewrite Rmult_assoc, Rinv_l by lra. nra.
Qed.
Lemma near_fsub : forall k a b y, is_double a -> is_double b -> 0 <= y -> near k (a - b) y -> near (S k) (fsub a b) y.
Proof.
  intros k a b y Ha Hb Hy H. unfold fsub. replace (a - b) with (a + - b) in H |- * by ring.
  apply near_fadd; try assumption. apply double_opp. exact Hb.
Qed.
(** The product, unless it is tiny. *)
Lemma near_fmul : forall k a b y, a * b = 0 \/ / 2 ^ 1000 <= a * b -> 0 <= y -> near k (a * b) y -> near (S k) (fmul a b) y.
Proof.
  intros k a b y [H0|Hl] Hy H.
  - unfold fmul. rewrite H0, rnd_0. apply (near_more k); [exact Hy|lia|]. rewrite <- H0. exact H.
  - assert (Hn : bpow radix2 (-1074 + 53 - 1) <= Rabs (a * b)).
    { rewrite Rabs_pos_eq by (apply Rle_trans with (2 := Hl); left; apply Rinv_0_lt_compat, pow_lt; lra).
      apply Rle_trans with (2 := Hl). apply Rle_trans with (bpow radix2 (-1000)); [apply bpow_le; lia|].
      change (-1000)%Z with (- Z.of_nat 1000)%Z. rewrite bpow_opp, bpow_powerRZ. rewrite <- pow_powerRZ. apply Rle_refl. }
    destruct (relative_error_N_FLT_ex radix2 (-1074) 53 eq_refl (fun x => negb (Z.even x)) (a * b) Hn) as [e [He E]].
    apply (near_rounded k (a * b) (fmul a b) y e Hy H E). apply Rle_trans with (1 := He).
    unfold u_. simpl. lra.
Qed.

(** ** One element *)
Section Lap.
Context (closed : bool) (sigma L : R) (s d : list R).
Context (H : forward_lap closed sigma L s d).

Lemma entry_double : forall (v : list R) i, Forall is_double v -> is_double (entry v i).
Proof.
  intros v i Hv. unfold entry. destruct (lt_dec i (length v)) as [Hi|Hi].
  - apply (proj1 (Forall_forall _ _) Hv). apply nth_In. exact Hi.
  - rewrite nth_overflow by lia. exact double_0.
Qed.
Lemma weight_double : is_double (fsub 1 sigma).
Proof. apply rnd_double. Qed.
Lemma weight_pos : 0 <= fsub 1 sigma.
Proof. apply fsub_pos. apply (fl_sigma _ _ _ _ _ H). Qed.

(** The length of an element times the weighted derivatives. *)
Definition piece (a b l r : R) : R := fmul (fsub b a) (fadd (fmul sigma r) (fmul (fsub 1 sigma) l)).
Lemma piece_pos : forall a b l r, a <= b -> 0 <= l -> 0 <= r -> 0 <= piece a b l r.
Proof.
  intros a b l r Hab Hl Hr. pose proof weight_pos. pose proof (fl_sigma _ _ _ _ _ H).
  apply fmul_pos; [apply fsub_pos; exact Hab|]. apply fadd_pos; apply fmul_pos; lra.
Qed.

Lemma tiny_powers : / 2 ^ 1000 <= / 2 ^ 100 * / 2 ^ 100 * / 2 ^ 100 * / 2 ^ 100 /\ 0 < / 2 ^ 100 <= 1 / 1000 /\ / 2 ^ 1000 > 0.
Proof.
  split; [|split; [split; [apply Rinv_0_lt_compat; lra|lra]|apply Rinv_0_lt_compat, pow_lt; lra]].
  assert (P : 0 < 2 ^ 100) by (apply pow_lt; lra).
  rewrite <- !Rinv_mult. apply Rinv_le_contravar.
  { apply Rmult_lt_0_compat; [apply Rmult_lt_0_compat; [apply Rmult_lt_0_compat|]|]; exact P. }
  rewrite <- !pow_add. apply Rle_pow; [lra|lia].
Qed.
Lemma least : forall a b c, 0 < c -> c <= a -> a <= b -> a * (1 / 2) <= b.
Proof. intros. lra. Qed.
Lemma weight_large : sigma <> 1 -> / 2 ^ 54 <= 1 - sigma.
Proof.
  intros Hne. destruct (fl_sigma _ _ _ _ _ H) as [_ Hs]. destruct (fl_doubles _ _ _ _ _ H) as [Hd _].
  destruct (Rle_or_lt sigma (1 - / 2 ^ 54)) as [Hl|Hl]; [lra|]. exfalso.
  assert (rnd sigma = sigma) as E by (apply rnd_id; exact Hd).
  assert (sigma <= 1 - bpow radix2 (-53)).
  { rewrite <- E. apply below_one. rewrite E. lra. }
  assert (bpow radix2 (-53) = / 2 ^ 53) as E' by (simpl; lra). rewrite E' in H0.
  assert (/ 2 ^ 54 < / 2 ^ 53) by (apply Rinv_lt_contravar; [apply Rmult_lt_0_compat; apply pow_lt; lra|lra]). lra.
Qed.
Lemma half_near : forall k x y, (k <= 10)%nat -> 0 <= y -> near k x y -> y * (1 / 2) <= x.
Proof.
  intros k x y Hk Hy [Hx _]. apply Rle_trans with (2 := Hx).
  assert (1 / 2 <= (1 - u_) ^ k).
  { apply Rle_trans with ((1 - u_) ^ 10); [unfold u_; lra|]. replace 10%nat with (k + (10 - k))%nat by lia. rewrite pow_add.
    pose proof (low_pos k). pose proof (low_pos (10 - k)). nra. }
  nra.
Qed.

Lemma piece_near : forall a b l r, is_double a -> is_double b -> is_double l -> is_double r ->
  sigma = 0 \/ / 2 ^ 100 <= sigma -> / 2 ^ 100 <= b - a -> / 2 ^ 100 <= l -> / 2 ^ 100 <= r ->
  near 5 (piece a b l r) (exact_element sigma (b - a) l r).
Proof.
  intros a b l r Da Db Dl Dr Hsg Hab Hl Hr. destruct tiny_powers as [HT [Ht Hu]].
  destruct (fl_sigma _ _ _ _ _ H) as [S0 S1]. destruct (fl_doubles _ _ _ _ _ H) as [Ds _].
  set (t := / 2 ^ 100) in *. set (T := / 2 ^ 1000) in *.
  assert (NF : forall k a b y, a * b = 0 \/ T <= a * b -> 0 <= y -> near k (a * b) y -> near (S k) (fmul a b) y) by exact near_fmul.
  clearbody T.
  assert (t * t <= t) by nra. assert (T <= t * t * t * t) by lra. assert (0 < t * t) by nra. assert (0 < t * t * t) by nra.
  assert (t * t * t <= t * t) by nra. assert (t * t * t * t <= t * t * t) by nra.
  assert (N1 : near 1 (fmul sigma r) (sigma * r)).
  { apply NF; [|nra|apply near_0]. destruct Hsg as [->|Hs]; [left; ring|right]. assert (t * t <= sigma * r) by (apply Rmult_le_compat; lra). lra. }
  assert (W : near 1 (fsub 1 sigma) (1 - sigma)).
  { apply near_fsub; [exact double_1|exact Ds|lra|apply near_0]. }
  assert (N2 : near 2 (fmul (fsub 1 sigma) l) ((1 - sigma) * l)).
  { apply NF; [|nra|].
    - destruct (Req_dec sigma 1) as [->|Hne].
      + left. unfold fsub. replace (1 - 1) with 0 by ring. rewrite rnd_0. ring.
      + right. pose proof (weight_large Hne) as Hw. assert (W0 : 0 <= 1 - sigma) by lra. pose proof (half_near 1 _ _ ltac:(lia) W0 W) as Hh.
        assert (t <= fsub 1 sigma).
        { apply Rle_trans with (2 := Hh). apply Rle_trans with (/ 2 ^ 54 * (1 / 2)); [|apply Rmult_le_compat_r; [lra|exact Hw]]. unfold t.
          replace (/ 2 ^ 54 * (1 / 2)) with (/ 2 ^ 55) by (simpl; field). apply Rinv_le_contravar; [apply pow_lt; lra|apply Rle_pow; [lra|lia]]. }
        assert (t * t <= fsub 1 sigma * l) by (apply Rmult_le_compat; lra). lra.
    - replace 1%nat with (1 + 0)%nat by lia. apply near_prod; [lra|lra|exact W|apply near_0]. }
  assert (E0 : t <= (1 - sigma) * l + sigma * r) by nra.
  assert (N3 : near 3 (fadd (fmul sigma r) (fmul (fsub 1 sigma) l)) ((1 - sigma) * l + sigma * r)).
  { apply near_fadd; [apply rnd_double|apply rnd_double|lra|]. replace ((1 - sigma) * l + sigma * r) with (sigma * r + (1 - sigma) * l) by ring.
    apply near_sum; [|exact N2]. apply (near_more 1); [nra|lia|exact N1]. }
  assert (N4 : near 1 (fsub b a) (b - a)) by (apply near_fsub; [exact Db|exact Da|lra|apply near_0]).
  unfold piece, exact_element. apply NF.
  - right. assert (P3 : 0 <= (1 - sigma) * l + sigma * r) by lra. assert (P4 : 0 <= b - a) by lra.
    pose proof (half_near 3 _ _ ltac:(lia) P3 N3). pose proof (half_near 1 _ _ ltac:(lia) P4 N4).
    assert (t * t <= fsub b a) by nra. assert (t * t <= fadd (fmul sigma r) (fmul (fsub 1 sigma) l)) by nra.
    apply Rle_trans with (t * t * (t * t)); [lra|apply Rmult_le_compat; lra].
  - apply Rmult_le_pos; lra.
  - apply (near_prod 1 3); try assumption; lra.
Qed.
End Lap.

(** ** The theorems *)
Lemma lap_entries : forall closed sigma L s d, forward_lap closed sigma L s d ->
  (forall i, is_double (at_ s i)) /\ (forall i, is_double (at_ d i)).
Proof.
  intros closed sigma L s d H. destruct (fl_doubles _ _ _ _ _ H) as (_ & _ & Hs & Hd).
  split; intros i; apply entry_double; assumption.
Qed.
Lemma time_double : forall sigma s d t0 i, is_double t0 -> is_double (time_at sigma s d t0 i).
Proof. intros sigma s d t0 [|i] Ht; [exact Ht|apply rnd_double]. Qed.
Lemma time_step : forall sigma s d t0 i,
  time_at sigma s d t0 (S i) = fadd (time_at sigma s d t0 i) (piece sigma (at_ s i) (at_ s (S i)) (at_ d i) (at_ d (S i))).
Proof. reflexivity. Qed.

(** The saved times never decrease along the mesh, and the lap does not end before the last of them. *)
Theorem C150_forwards : forall closed sigma L s d t0, forward_lap closed sigma L s d -> is_double t0 ->
  (forall i j, (i <= j < length s)%nat -> entry (times_rounded sigma s d t0) i <= entry (times_rounded sigma s d t0) j) /\
  entry (times_rounded sigma s d t0) 0 = t0 /\
  entry (times_rounded sigma s d t0) (length s - 1) <= laptime_rounded sigma L s d closed t0.
Proof.
  intros closed sigma L s d t0 H Ht. destruct (fl_sizes _ _ _ _ _ H) as [Hn Hd].
  assert (E : forall i, (i < length s)%nat -> entry (times_rounded sigma s d t0) i = time_at sigma s d t0 i).
  { intros i Hi. unfold entry, times_rounded. rewrite nth_indep with (d' := time_at sigma s d t0 0) by (rewrite map_length, seq_length; exact Hi).
    rewrite map_nth, seq_nth by exact Hi. reflexivity. }
  split; [|split].
  - intros i j [Hij Hj]. rewrite !E by lia. clear E. induction j as [|j IH]; [replace i with 0%nat by lia; apply Rle_refl|].
    destruct (Nat.eq_dec i (S j)) as [->|Hne]; [apply Rle_refl|]. apply Rle_trans with (1 := IH ltac:(lia) ltac:(lia)).
    rewrite time_step. apply fadd_grows; [apply time_double; exact Ht|].
    apply (piece_pos closed sigma L s d H); [left; apply (fl_order _ _ _ _ _ H); exact Hj| |]; apply (fl_rates _ _ _ _ _ H); lia.
  - rewrite E by lia. reflexivity.
  - rewrite E by lia. unfold laptime_rounded, last_. destruct closed; [|apply Rle_refl].
    apply fadd_grows; [apply time_double; exact Ht|]. rewrite fadd_comm.
    apply (piece_pos true sigma L s d H); [left; apply (fl_end _ _ _ _ _ H); reflexivity| |]; apply (fl_rates _ _ _ _ _ H); lia.
Qed.

(** They grow strictly when the elements are not shorter than about a millimetre, the speed stays below about a thousand metres per second and the
    lap takes less than twelve days. *)
Theorem C150_strictly : forall closed sigma L s d t0 i, forward_lap closed sigma L s d -> is_double t0 -> (S i < length s)%nat ->
  sigma = 0 \/ / 2 ^ 100 <= sigma ->
  / 1024 <= entry s (S i) - entry s i -> / 1024 <= entry d i -> / 1024 <= entry d (S i) ->
  0 <= entry (times_rounded sigma s d t0) i <= 1024 * 1024 ->
  entry (times_rounded sigma s d t0) i < entry (times_rounded sigma s d t0) (S i).
Proof.
  intros closed sigma L s d t0 i H Ht Hi Hsg Hs Hd Hd' Hti.
  assert (E : forall i, (i < length s)%nat -> entry (times_rounded sigma s d t0) i = time_at sigma s d t0 i).
  { intros k Hk. unfold entry, times_rounded. rewrite nth_indep with (d' := time_at sigma s d t0 0) by (rewrite map_length, seq_length; exact Hk).
    rewrite map_nth, seq_nth by exact Hk. reflexivity. }
  rewrite E in Hti by lia. rewrite !E by lia. rewrite time_step. destruct (lap_entries _ _ _ _ _ H) as [D1 D2].
  pose proof (fl_sigma _ _ _ _ _ H) as Hw. destruct tiny_powers as (_ & Htp & _).
  change entry with at_ in Hs, Hd, Hd'.
  assert (N : near 5 (piece sigma (at_ s i) (at_ s (S i)) (at_ d i) (at_ d (S i)))
                (exact_element sigma (at_ s (S i) - at_ s i) (at_ d i) (at_ d (S i)))).
  { apply (piece_near closed sigma L s d H); try apply D1; try apply D2; try exact Hsg; lra. }
  assert (P0 : / 1024 <= (1 - sigma) * at_ d i + sigma * at_ d (S i)) by nra.
  assert (P : / 1024 * / 1024 <= exact_element sigma (at_ s (S i) - at_ s i) (at_ d i) (at_ d (S i))).
  { unfold exact_element. apply Rmult_le_compat; lra. }
  assert (P' : 0 <= exact_element sigma (at_ s (S i) - at_ s i) (at_ d i) (at_ d (S i))) by lra.
  pose proof (half_near 5 _ _ ltac:(lia) P' N) as Hh.
  set (t := time_at sigma s d t0 i) in *. set (p := piece sigma _ _ _ _) in *.
  assert (Dt : is_double t) by (apply time_double; exact Ht).
  set (e := / 1024 * / 1024 * (1 / 2)). assert (De : is_double e).
  { apply (double_of 1 (-21)); [unfold e; simpl; lra|reflexivity|lia]. }
  assert (Hg : fadd t e <= fadd t p) by (apply rnd_le; unfold e; lra).
  apply Rlt_le_trans with (2 := Hg). assert (0 < e) by (unfold e; lra).
  assert (N' : near 1 (fadd t e) (t + e)) by (apply near_fadd; [exact Dt|exact De|lra|apply near_0]).
  destruct N' as [N1 _]. apply Rlt_le_trans with (2 := N1). rewrite pow_1. unfold u_, e in *. lra.
Qed.

Lemma exact_step : forall sigma s d t0 k, exact_time sigma s d t0 (S k) =
  exact_time sigma s d t0 k + exact_element sigma (entry s (S k) - entry s k) (entry d k) (entry d (S k)).
Proof.
  intros sigma s d t0 k. unfold exact_time. rewrite seq_S, map_app, fold_right_app. cbn [map fold_right]. rewrite Nat.add_0_l.
  set (x := exact_element _ _ _ _). generalize (map (fun i => exact_element sigma (entry s (S i) - entry s i) (entry d i) (entry d (S i))) (seq 0 k)).
  intros l. assert (forall a, fold_right Rplus a l = fold_right Rplus 0 l + a) as E.
  { intros a. induction l as [|b l IH]; cbn; [ring|rewrite IH; ring]. }
  rewrite (E (x + 0)). ring.
Qed.
Lemma exact_element_pos : forall sigma a l r, 0 <= sigma <= 1 -> 0 <= a -> 0 <= l -> 0 <= r -> 0 <= exact_element sigma a l r.
Proof. intros. unfold exact_element. apply Rmult_le_pos; [assumption|]. assert (0 <= (1 - sigma) * l) by nra. nra. Qed.

Lemma time_near : forall closed sigma L s d t0, forward_lap closed sigma L s d -> not_tiny closed sigma L s d -> is_double t0 -> 0 <= t0 ->
  forall k, (k < length s)%nat -> 0 <= exact_time sigma s d t0 k /\ near (k + 5) (time_at sigma s d t0 k) (exact_time sigma s d t0 k).
Proof.
  intros closed sigma L s d t0 H Hn Ht Ht0. destruct (lap_entries _ _ _ _ _ H) as [D1 D2]. pose proof (fl_sigma _ _ _ _ _ H) as Hs.
  induction k as [|k IH]; intros Hk.
  - unfold exact_time. cbn. rewrite Rplus_0_r. split; [exact Ht0|]. apply (near_more 0); [exact Ht0|lia|apply near_0].
  - destruct (IH ltac:(lia)) as [P N]. rewrite exact_step, time_step.
    assert (P' : 0 <= exact_element sigma (entry s (S k) - entry s k) (entry d k) (entry d (S k))).
    { pose proof (fl_order _ _ _ _ _ H k Hk). apply exact_element_pos; [exact Hs|lra| |]; apply (fl_rates _ _ _ _ _ H); lia. }
    split; [lra|]. cbn [Nat.add]. apply near_fadd; [apply time_double; exact Ht|apply rnd_double|lra|].
    apply near_sum; [exact N|]. apply (near_more 5); [exact P'|lia|].
    apply (piece_near closed sigma L s d H); try apply D1; try apply D2; [exact (nt_sigma _ _ _ _ _ Hn)|apply (nt_steps _ _ _ _ _ Hn); exact Hk| |];
      apply (nt_rates _ _ _ _ _ Hn); lia.
Qed.

Lemma low_power : forall k, 1 - INR k * u_ <= (1 - u_) ^ k.
Proof.
  pose proof u_small. induction k; [simpl; lra|]. rewrite S_INR. cbn [pow]. pose proof (low_pos k).
  pose proof (pos_INR k). assert (0 <= INR k * u_ * u_) by (repeat apply Rmult_le_pos; lra). nra.
Qed.
Lemma high_power : forall k, 2 * INR k * u_ <= 1 -> (1 + u_) ^ k <= 1 + 2 * INR k * u_.
Proof.
  pose proof u_small. induction k; intros Hk; [simpl; lra|]. rewrite S_INR in *. cbn [pow].
  assert (2 * INR k * u_ <= 1) by nra. specialize (IHk H0). pose proof (pos_INR k).
  assert (2 * INR k * u_ * u_ <= u_) by nra. nra.
Qed.
Lemma near_error : forall k x y, 0 <= y -> 2 * INR k * u_ <= 1 -> near k x y -> Rabs (x - y) <= 2 * INR k * u_ * y.
Proof.
  intros k x y Hy Hk [A B]. pose proof (low_power k). pose proof (high_power k Hk). pose proof u_small. pose proof (pos_INR k).
  assert (0 <= INR k * u_) by (apply Rmult_le_pos; lra). assert (0 <= INR k * u_ * y) by (apply Rmult_le_pos; lra).
  apply Rabs_le. split.
  - assert ((1 - INR k * u_) * y <= (1 - u_) ^ k * y) by (apply Rmult_le_compat_r; lra). lra.
  - assert ((1 + u_) ^ k * y <= (1 + 2 * INR k * u_) * y) by (apply Rmult_le_compat_r; lra). lra.
Qed.

(** The times and the lap time differ from the quadrature without rounding by less than (n + 5) / 2^52 of it, [n] being the number of
    points: two hundred-millionths of a second in a lap of a hundred seconds with a million points. *)
Theorem C150_accuracy : forall closed sigma L s d t0, forward_lap closed sigma L s d -> not_tiny closed sigma L s d ->
  is_double t0 -> 0 <= t0 -> (INR (length s) + 5) <= 2 ^ 52 ->
  (forall k, (k < length s)%nat ->
     Rabs (entry (times_rounded sigma s d t0) k - exact_time sigma s d t0 k) <= (INR (length s) + 5) / 2 ^ 52 * exact_time sigma s d t0 k) /\
  Rabs (laptime_rounded sigma L s d closed t0 - exact_laptime closed sigma L s d t0) <=
    (INR (length s) + 5) / 2 ^ 52 * exact_laptime closed sigma L s d t0.
Proof.
  intros closed sigma L s d t0 H Hn Ht Ht0 Hl. destruct (fl_sizes _ _ _ _ _ H) as [Hp _].
  assert (EU : (INR (length s) + 5) / 2 ^ 52 = 2 * INR (length s + 5) * u_).
  { rewrite plus_INR. replace (INR 5) with 5 by (simpl; ring). unfold u_. field. }
  assert (LU : 2 * INR (length s + 5) * u_ <= 1).
  { rewrite <- EU. apply Rmult_le_reg_r with (2 ^ 52); [apply pow_lt; lra|]. unfold Rdiv. rewrite Rmult_assoc, Rinv_l by (apply pow_nonzero; lra). lra. }
  rewrite EU. destruct (lap_entries _ _ _ _ _ H) as [D1 D2]. split.
  - intros k Hk. unfold entry at 1, times_rounded.
    rewrite nth_indep with (d' := time_at sigma s d t0 0) by (rewrite map_length, seq_length; exact Hk).
    rewrite map_nth, seq_nth by exact Hk. cbn [Nat.add].
    destruct (time_near _ _ _ _ _ _ H Hn Ht Ht0 k Hk) as [P N]. apply near_error; [exact P|exact LU|].
    apply (near_more (k + 5)); [exact P|lia|exact N].
  - destruct (time_near _ _ _ _ _ _ H Hn Ht Ht0 (length s - 1)%nat ltac:(lia)) as [P N].
    unfold laptime_rounded, exact_laptime, last_. destruct closed.
    + assert (P' : 0 <= exact_element sigma (L - entry s (length s - 1)) (entry d (length s - 1)) (entry d 0)).
      { pose proof (fl_end _ _ _ _ _ H eq_refl). apply exact_element_pos; [exact (fl_sigma _ _ _ _ _ H)|lra| |]; apply (fl_rates _ _ _ _ _ H); lia. }
      apply near_error; [lra|exact LU|]. apply (near_more (S (length s - 1 + 5))); [lra|lia|].
      apply near_fadd; [apply time_double; exact Ht|apply rnd_double|lra|]. apply near_sum; [exact N|].
      apply (near_more 5); [exact P'|lia|]. rewrite fadd_comm.
      destruct (fl_doubles _ _ _ _ _ H) as (_ & DL & _ & _).
      apply (piece_near true sigma L s d H); try apply D1; try apply D2; try exact DL; [exact (nt_sigma _ _ _ _ _ Hn)|apply (nt_end _ _ _ _ _ Hn); reflexivity| |];
        apply (nt_rates _ _ _ _ _ Hn); lia.
    + rewrite Rplus_0_r. apply near_error; [exact P|exact LU|]. apply (near_more (length s - 1 + 5)); [exact P|lia|exact N].
Qed.

(** ** The objective *)
Lemma add_all_app : forall l l' x, add_all x (l ++ l') = add_all (add_all x l) l'.
Proof. intros l l' x. unfold add_all. apply fold_left_app. Qed.
Lemma add_all_double : forall l x, is_double x -> is_double (add_all x l).
Proof. induction l as [|a l IH]; intros x Hx; [exact Hx|]. cbn. apply IH. apply rnd_double. Qed.
Lemma add_all_grows : forall l x, is_double x -> Forall (fun a => 0 <= a) l -> x <= add_all x l.
Proof.
  induction l as [|a l IH]; intros x Hx Hl; [apply Rle_refl|]. apply Forall_cons_iff in Hl. destruct Hl as [Ha Hl].
  apply Rle_trans with (fadd x a); [apply fadd_grows; assumption|]. apply (IH (fadd x a)); [apply rnd_double|exact Hl].
Qed.
Lemma add_all_mono : forall l x y, x <= y -> add_all x l <= add_all y l.
Proof. induction l as [|a l IH]; intros x y Hxy; [exact Hxy|]. cbn. apply IH. apply rnd_le. lra. Qed.
Lemma add_all_zeros : forall l x, is_double x -> Forall (fun a => a = 0) l -> add_all x l = x.
Proof.
  induction l as [|a l IH]; intros x Hx Hl; [reflexivity|]. apply Forall_cons_iff in Hl. destruct Hl as [-> Hl].
  cbn. rewrite fadd_0 by exact Hx. apply IH; assumption.
Qed.
Lemma element_piece : forall sigma d swap l r a b, element sigma d swap l r (fsub b a) = piece sigma a b (at_ d l) (at_ d r).
Proof. intros sigma d [] l r a b; unfold element, piece; [reflexivity|]. rewrite fadd_comm. reflexivity. Qed.

Lemma elements_time : forall sigma s d k, add_all 0 (map (fun i => element sigma d false (i - 1) i (step_ s i)) (seq 1 k)) = time_at sigma s d 0 k.
Proof.
  intros sigma s d. induction k as [|k IH]; [reflexivity|]. rewrite seq_S, map_app, add_all_app, IH. cbn [map]. unfold add_all at 1, fold_left.
  rewrite time_step. f_equal. unfold step_. rewrite element_piece. replace (1 + k - 1)%nat with k by lia. reflexivity.
Qed.
Lemma value_penalty_pos : forall l r ds c, 0 <= ds -> 0 <= f_dissipation c -> 0 <= value_penalty l r ds c.
Proof. intros l r ds c Hd Hc. apply fmul_pos; [|exact Hd]. apply fmul_pos; [exact Hc|apply fsq_pos]. Qed.
Lemma rate_penalty_pos : forall l r ds c, 0 <= ds -> 0 <= f_dissipation c -> 0 <= rate_penalty l r ds c.
Proof.
  intros l r ds c Hd Hc. apply fmul_pos; [|exact Hd]. apply fmul_pos; [apply fmul_pos; lra|]. apply fadd_pos; apply fsq_pos.
Qed.
Lemma value_penalty_0 : forall l r ds c, f_dissipation c = 0 -> value_penalty l r ds c = 0.
Proof. intros l r ds c E. unfold value_penalty. rewrite E, !fmul_0_l. reflexivity. Qed.
Lemma rate_penalty_0 : forall l r ds c, f_dissipation c = 0 -> rate_penalty l r ds c = 0.
Proof. intros l r ds c E. unfold rate_penalty. rewrite E, fmul_0_r, !fmul_0_l. reflexivity. Qed.

Lemma steps_pos : forall closed sigma L s d, forward_lap closed sigma L s d -> forall i, In i (seq 1 (length s - 1)) -> 0 <= step_ s i.
Proof.
  intros closed sigma L s d H i Hi. apply in_seq in Hi. unfold step_. apply fsub_pos. left.
  pose proof (fl_order _ _ _ _ _ H (i - 1)%nat ltac:(lia)) as Ho. replace (S (i - 1)) with i in Ho by lia. exact Ho.
Qed.
Lemma derivative_elements : forall sigma s d cs k, Forall (fun c => 0 <= f_dissipation c) cs -> (forall i, In i (seq 1 k) -> 0 <= step_ s i) ->
  time_at sigma s d 0 k <= add_all 0 (flat_map (fun i => element sigma d false (i - 1) i (step_ s i) :: map (rate_penalty (i - i) i (step_ s i)) cs) (seq 1 k)) /\
  (Forall (fun c => f_dissipation c = 0) cs ->
   add_all 0 (flat_map (fun i => element sigma d false (i - 1) i (step_ s i) :: map (rate_penalty (i - i) i (step_ s i)) cs) (seq 1 k)) = time_at sigma s d 0 k).
Proof.
  intros sigma s d cs k Hc. induction k as [|k IH]; intros Hs; [split; [apply Rle_refl|reflexivity]|].
  rewrite seq_S, flat_map_app, add_all_app. cbn [flat_map]. rewrite app_nil_r. cbn [add_all fold_left].
  change (fold_left fadd) with (fun l x => add_all x l). cbv beta. rewrite time_step.
  destruct IH as [I1 I2]. { intros i Hi. apply Hs. rewrite seq_S. apply in_or_app. left. exact Hi. }
  assert (E : element sigma d false (1 + k - 1) (1 + k) (step_ s (1 + k)) = piece sigma (at_ s k) (at_ s (S k)) (at_ d k) (at_ d (S k))).
  { unfold step_. rewrite element_piece. replace (1 + k - 1)%nat with k by lia. reflexivity. }
  rewrite E. split.
  - eapply Rle_trans; [|apply add_all_grows; [apply rnd_double|]].
    + apply rnd_le. lra.
    + apply Forall_forall. intros a Ha. apply in_map_iff in Ha. destruct Ha as [c [<- Hin]].
      apply rate_penalty_pos; [apply Hs; rewrite seq_S; apply in_or_app; right; left; reflexivity|].
      exact (proj1 (Forall_forall _ _) Hc c Hin).
  - intros Hz. rewrite (I2 Hz). apply add_all_zeros; [apply rnd_double|].
    apply Forall_forall. intros a Ha. apply in_map_iff in Ha. destruct Ha as [c [<- Hin]]. apply rate_penalty_0. exact (proj1 (Forall_forall _ _) Hz c Hin).
Qed.

(** What the solver minimises is never below the reported lap time and, without penalisations, is the same double, in both formulations. The lap
    starts at time 0. *)
Theorem C150_objective : forall closed sigma L s d cs, forward_lap closed sigma L s d ->
  Forall (fun c => 0 <= f_dissipation c) cs ->
  let laptime := laptime_rounded sigma L s d closed 0 in
  laptime <= objective_direct sigma L s d closed cs /\ laptime <= objective_derivative sigma L s d closed cs /\
  (Forall (fun c => f_dissipation c = 0) cs ->
   objective_direct sigma L s d closed cs = laptime /\ objective_derivative sigma L s d closed cs = laptime).
Proof.
  intros closed sigma L s d cs H Hc laptime. unfold laptime, laptime_rounded, objective_direct, objective_derivative.
  pose proof (steps_pos _ _ _ _ _ H) as Hs. pose proof (derivative_elements sigma s d cs (length s - 1) Hc Hs) as [D1 D2].
  assert (T : is_double (time_at sigma s d 0 (length s - 1))) by (apply time_double; exact double_0).
  rewrite !add_all_app, elements_time. fold (last_ s) in *.
  set (pen := flat_map _ cs).
  assert (P1 : time_at sigma s d 0 (last_ s) <= add_all (time_at sigma s d 0 (last_ s)) pen).
  { apply add_all_grows; [exact T|]. apply Forall_forall. intros a Ha. apply in_flat_map in Ha. destruct Ha as [c [Hin Ha]].
    apply in_map_iff in Ha. destruct Ha as [i [<- Hi]]. apply value_penalty_pos; [apply Hs; exact Hi|exact (proj1 (Forall_forall _ _) Hc c Hin)]. }
  assert (P2 : Forall (fun c => f_dissipation c = 0) cs -> add_all (time_at sigma s d 0 (last_ s)) pen = time_at sigma s d 0 (last_ s)).
  { intros Hz. apply add_all_zeros; [exact T|]. apply Forall_forall. intros a Ha. apply in_flat_map in Ha. destruct Ha as [c [Hin Ha]].
    apply in_map_iff in Ha. destruct Ha as [i [<- Hi]]. apply value_penalty_0. exact (proj1 (Forall_forall _ _) Hz c Hin). }
  destruct closed.
  - assert (Pd : 0 <= fsub L (at_ s (last_ s))) by (apply fsub_pos; left; apply (fl_end _ _ _ _ _ H); reflexivity).
    rewrite (fadd_comm (fmul (fsub 1 sigma) _)). rewrite !element_piece.
    change (fmul (fsub L (at_ s (last_ s))) (fadd (fmul sigma (at_ d 0)) (fmul (fsub 1 sigma) (at_ d (last_ s)))))
      with (piece sigma (at_ s (last_ s)) L (at_ d (last_ s)) (at_ d 0)).
    set (p := piece _ _ _ _ _). cbn [add_all fold_left]. change (fold_left fadd) with (fun l x => add_all x l). cbv beta.
    split; [|split].
    + eapply Rle_trans; [|apply add_all_grows; [apply rnd_double|]].
      * apply rnd_le. lra.
      * apply Forall_forall. intros a Ha. apply in_map_iff in Ha. destruct Ha as [c [<- Hin]].
        apply value_penalty_pos; [exact Pd|exact (proj1 (Forall_forall _ _) Hc c Hin)].
    + eapply Rle_trans; [|apply add_all_grows; [apply rnd_double|]].
      * apply rnd_le. apply Rplus_le_compat_r. exact D1.
      * apply Forall_forall. intros a Ha. apply in_map_iff in Ha. destruct Ha as [c [<- Hin]].
        apply rate_penalty_pos; [exact Pd|exact (proj1 (Forall_forall _ _) Hc c Hin)].
    + intros Hz. rewrite (P2 Hz), (D2 Hz). split; apply add_all_zeros; try apply rnd_double;
        apply Forall_forall; intros a Ha; apply in_map_iff in Ha; destruct Ha as [c [<- Hin]];
        [apply value_penalty_0|apply rate_penalty_0]; exact (proj1 (Forall_forall _ _) Hz c Hin).
  - cbn [add_all fold_left]. split; [exact P1|]. split; [exact D1|]. intros Hz. rewrite (P2 Hz). split; [reflexivity|exact (D2 Hz)].
Qed.

(** A lap of sixteen metres in three elements, with a penalised control. *)
Definition small_s : list R := [0; 4; 10].
Definition small_d : list R := [1 / 64; 1 / 32; 3 / 64].
Lemma small_doubles : is_double (1 / 2) /\ is_double 16 /\ Forall is_double small_s /\ Forall is_double small_d.
Proof.
  assert (I : forall n, (Z.abs n < 2 ^ 53)%Z -> is_double (IZR n)) by (intros n Hn; apply (double_of n 0); [simpl; ring|exact Hn|lia]).
  split; [|split; [|split]].
  - apply (double_of 1 (-1)); [simpl; lra|reflexivity|lia].
  - apply I. reflexivity.
  - repeat constructor; apply I; reflexivity.
  - constructor; [apply (double_of 1 (-6)); [simpl; lra|reflexivity|lia]|].
    constructor; [apply (double_of 1 (-5)); [simpl; lra|reflexivity|lia]|].
    constructor; [apply (double_of 3 (-6)); [simpl; lra|reflexivity|lia]|constructor].
Qed.
Lemma tiny_le : forall x, 1 / 1000 <= x -> / 2 ^ 100 <= x.
Proof. intros x Hx. destruct tiny_powers as (_ & T & _). lra. Qed.
Example C150_case : forward_lap true (1 / 2) 16 small_s small_d /\ not_tiny true (1 / 2) 16 small_s small_d /\
  Forall (fun c => 0 <= f_dissipation c) [FullControl 1 [0; 1; 0] [1; 1; 1]] /\
  exact_laptime true (1 / 2) 16 small_s small_d 0 = 33 / 64 /\
  0 < laptime_rounded (1 / 2) 16 small_s small_d true 0.
Proof.
  assert (F : forward_lap true (1 / 2) 16 small_s small_d).
  { split.
    - cbn. split; [lia|reflexivity].
    - exact small_doubles.
    - lra.
    - intros [|[|i]] Hi; cbn in *; try lra; lia.
    - intros _. cbn. lra.
    - intros [|[|[|i]]] Hi; cbn in *; try lra; lia. }
  assert (N : not_tiny true (1 / 2) 16 small_s small_d).
  { split.
    - right. apply tiny_le. lra.
    - intros [|[|i]] Hi; try (apply tiny_le; cbn in *; lra); cbn in Hi; lia.
    - intros _. apply tiny_le. cbn. lra.
    - intros [|[|[|i]]] Hi; try (apply tiny_le; cbn in *; lra); cbn in Hi; lia. }
  assert (E : exact_laptime true (1 / 2) 16 small_s small_d 0 = 33 / 64).
  { unfold exact_laptime, exact_time, exact_element. cbn. field. }
  split; [exact F|]. split; [exact N|]. split; [repeat constructor; cbn; lra|]. split; [exact E|].
  destruct (C150_accuracy true (1 / 2) 16 small_s small_d 0 F N double_0 (Rle_refl 0)) as [_ A]; [cbn; lra|].
  rewrite E in A. apply Rabs_le_inv in A. cbn [length small_s INR] in A. lra.
Qed.
Example C150_strict_case : entry (times_rounded (1 / 2) small_s small_d 0) 0 < entry (times_rounded (1 / 2) small_s small_d 0) 1.
Proof.
  apply (C150_strictly true (1 / 2) 16 small_s small_d 0 0 (proj1 C150_case) double_0); [cbn; lia|right; apply tiny_le; lra|cbn; lra..].
Qed.

Print Assumptions C150_forwards.
Print Assumptions C150_strictly.
Print Assumptions C150_accuracy.
Print Assumptions C150_objective.
