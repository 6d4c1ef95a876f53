(** Lemmas on the mesh generation. *)
From Coq Require Import QArith Qpower Qround Qfield Lqa Bool Arith ZArith Lia List Setoid.
From Verif Require Import M_Controls L_Pack M_Mesh S_Mesh L_Colloc3.
Import ListNotations.
Local Open Scope nat_scope.

Section Loop.
Context (f : Q -> Q) (r s_end d D : Q).
Context (Hr : (1 <= r)%Q) (Hd : (0 < d)%Q) (Hf : forall s, (0 <= s < s_end)%Q -> (d <= f s <= D)%Q).

Lemma div_r prev : (0 <= prev)%Q -> (0 <= prev / r <= prev)%Q /\ (prev == r * (prev / r))%Q.
Proof.
  intros H. assert (E : (r * (prev / r) == prev)%Q) by (apply Qmult_div_r; intros E; rewrite E in Hr; lra).
  split; [|symmetry; exact E]. split.
  - apply Qle_shift_div_l; lra.
  - apply Qle_shift_div_r; [lra|]. nra.
Qed.

Lemma clamp_bounds prev ds : (d <= prev <= D)%Q -> (d <= ds <= D)%Q ->
  (d <= clamp_ds r prev ds <= D)%Q /\ graded r (clamp_ds r prev ds) prev.
Proof.
  intros Hp Hs. destruct (div_r prev ltac:(lra)) as [H1 H2]. unfold clamp_ds, graded.
  destruct (Qlt_bool (r * prev) ds) eqn:E1; [apply Qlt_bool_iff in E1|apply Qlt_bool_false in E1; destruct (Qlt_bool ds (prev / r)) eqn:E2; [apply Qlt_bool_iff in E2|apply Qlt_bool_false in E2]].
  - assert (prev <= r * prev)%Q by nra. split; [lra|]. split; [lra|]. nra.
  - split; [lra|]. split; [|lra]. assert (prev <= r * prev)%Q by nra. lra.
  - split; [lra|]. split; [lra|]. rewrite H2 at 1. nra.
Qed.

Definition nd (m : list Q) (i : nat) : Q := nth i m 0%Q.

(** Invariant; the mesh has the last point first. *)
Record inv (m : list Q) (prev : Q) : Prop := {
  iv_len : 1 <= length m;
  iv_prev : (d <= prev <= D)%Q;
  iv_hd : 2 <= length m -> (prev == nd m 0 - nd m 1)%Q;
  iv_size : forall i, S i < length m -> (d <= nd m i - nd m (S i) <= D)%Q;
  iv_grade : forall i, S (S i) < length m -> graded r (nd m i - nd m (S i)) (nd m (S i) - nd m (S (S i)));
  iv_zero : (nd m (length m - 1) == 0)%Q;
  iv_before : forall i, 1 <= i < length m -> (nd m i < s_end)%Q }.

Lemma graded_ext r' a b a' b' : (a == a')%Q -> (b == b')%Q -> graded r' a b -> graded r' a' b'.
Proof. unfold graded. intros E1 E2. rewrite <- E1, <- E2. auto. Qed.

Lemma inv_nonneg m prev : inv m prev -> forall i, i < length m -> (0 <= nd m i)%Q.
Proof.
  intros H i Hi. remember (length m - 1 - i) as k eqn:Ek. revert i Hi Ek.
  induction k as [|k IH]; intros i Hi Ek.
  - replace i with (length m - 1) by lia. rewrite (iv_zero _ _ H). lra.
  - specialize (IH (S i) ltac:(lia) ltac:(lia)). pose proof (iv_size _ _ H i ltac:(lia)). lra.
Qed.

Lemma inv_step back m prev : inv (back :: m) prev -> (back < s_end)%Q ->
  inv ((back + clamp_ds r prev (f back))%Q :: back :: m) (clamp_ds r prev (f back)).
Proof.
  intros H Hb. pose proof (inv_nonneg _ _ H 0 ltac:(cbn; lia)) as H0. cbn in H0.
  destruct (clamp_bounds prev (f back) (iv_prev _ _ H) (Hf back ltac:(lra))) as [B G].
  remember (clamp_ds r prev (f back)) as ds eqn:Eds. clear Eds.
  assert (E0 : (back + ds - back == ds)%Q) by ring.
  split.
  - cbn. lia.
  - exact B.
  - intros _. cbn. ring.
  - intros [|i] Hi; [cbn; lra|]. apply (iv_size _ _ H i). cbn in *. lia.
  - intros [|i] Hi; [|apply (iv_grade _ _ H i); cbn in *; lia]. change (nd (back + ds :: back :: m)%Q 0) with (back + ds)%Q.
    change (nd (back + ds :: back :: m)%Q 1) with back. apply (graded_ext r ds prev); [symmetry; exact E0| |exact G].
    apply (iv_hd _ _ H). cbn in *. lia.
  - cbn [length]. replace (S (S (length m)) - 1) with (S (length (back :: m) - 1)) by (cbn; lia). exact (iv_zero _ _ H).
  - intros [|[|i]] Hi; [lia|exact Hb|]. apply (iv_before _ _ H (S i)). cbn in *. lia.
Qed.

Lemma mesh_loop_eq fuel back m prev : mesh_loop fuel f r s_end (back :: m) prev =
  if Qlt_bool back s_end then
    match fuel with
    | O => None
    | S fuel' => mesh_loop fuel' f r s_end ((back + clamp_ds r prev (f back))%Q :: back :: m) (clamp_ds r prev (f back))
    end
  else Some (back :: m).
Proof. destruct fuel; reflexivity. Qed.

Lemma loop_inv fuel : forall m prev m', inv m prev -> mesh_loop fuel f r s_end m prev = Some m' ->
  exists prev', inv m' prev' /\ (s_end <= nd m' 0)%Q /\ length m <= length m'.
Proof.
  induction fuel as [|fuel IH]; intros [|back m] prev m' H E; try (pose proof (iv_len _ _ H); cbn in *; lia); rewrite mesh_loop_eq in E.
  - destruct (Qlt_bool back s_end) eqn:B; [discriminate|]. injection E as <-. apply Qlt_bool_false in B. exists prev. split; [exact H|]. split; [exact B|lia].
  - destruct (Qlt_bool back s_end) eqn:B.
    + apply Qlt_bool_iff in B. destruct (IH _ _ _ (inv_step back m prev H B) E) as (p' & I' & L & N).
      exists p'. split; [exact I'|]. split; [exact L|]. cbn in *. lia.
    + injection E as <-. apply Qlt_bool_false in B. exists prev. split; [exact H|]. split; [exact B|lia].
Qed.

Lemma loop_ends fuel : forall m prev, inv m prev -> (s_end <= nd m 0 + inject_Z (Z.of_nat fuel) * d)%Q ->
  exists m', mesh_loop fuel f r s_end m prev = Some m'.
Proof.
  induction fuel as [|fuel IH]; intros [|back m] prev H E; try (pose proof (iv_len _ _ H); cbn in *; lia); rewrite mesh_loop_eq; unfold nd in E; cbn [nth] in E.
  - destruct (Qlt_bool back s_end) eqn:B; [|eexists; reflexivity]. apply Qlt_bool_iff in B. change (inject_Z (Z.of_nat 0)) with 0%Q in E. exfalso. lra.
  - destruct (Qlt_bool back s_end) eqn:B; [|eexists; reflexivity]. apply Qlt_bool_iff in B.
    pose proof (inv_step back m prev H B) as H'. apply (IH _ _ H'). unfold nd. cbn [nth].
    pose proof (iv_prev _ _ H') as Hp. rewrite Nat2Z.inj_succ, <- Z.add_1_r, inject_Z_plus in E. change (inject_Z 1) with 1%Q in E. lra.
Qed.

Definition enough : nat := Z.to_nat (Qceiling (s_end / d)).
Lemma enough_spec x : (0 <= x)%Q -> (s_end <= x + inject_Z (Z.of_nat enough) * d)%Q.
Proof.
  intros Hx. unfold enough. assert (H : (s_end / d <= inject_Z (Z.of_nat (Z.to_nat (Qceiling (s_end / d)))))%Q).
  { apply Qle_trans with (inject_Z (Qceiling (s_end / d))); [apply Qle_ceiling|]. rewrite <- Zle_Qle. lia. }
  apply (Qmult_le_r _ _ d Hd) in H. assert (E : (s_end / d * d == s_end)%Q) by (field; lra). rewrite E in H. lra.
Qed.

(** number of points of a finished mesh *)
Lemma inv_reach m prev : inv m prev -> (s_end <= nd m 0)%Q -> (nd m 0 <= inject_Z (Z.of_nat (length m - 1)) * D)%Q.
Proof.
  intros H _. assert (K : forall k, k <= length m - 1 -> (nd m (length m - 1 - k) <= inject_Z (Z.of_nat k) * D)%Q).
  { induction k as [|k IH]; intros Hk.
    - rewrite Nat.sub_0_r. rewrite (iv_zero _ _ H). change (inject_Z (Z.of_nat 0)) with 0%Q. lra.
    - pose proof (iv_size _ _ H (length m - 1 - S k) ltac:(lia)) as S1. replace (S (length m - 1 - S k)) with (length m - 1 - k) in S1 by lia.
      specialize (IH ltac:(lia)). rewrite Nat2Z.inj_succ, <- Z.add_1_r, inject_Z_plus. change (inject_Z 1) with 1%Q. lra. }
  specialize (K (length m - 1) ltac:(lia)). rewrite Nat.sub_diag in K. exact K.
Qed.
Lemma inv_far m prev : inv m prev -> (inject_Z (Z.of_nat (length m - 1)) * d <= nd m 0)%Q.
Proof.
  intros H. assert (K : forall k, k <= length m - 1 -> (inject_Z (Z.of_nat k) * d <= nd m (length m - 1 - k))%Q).
  { induction k as [|k IH]; intros Hk.
    - rewrite Nat.sub_0_r. rewrite (iv_zero _ _ H). change (inject_Z (Z.of_nat 0)) with 0%Q. lra.
    - pose proof (iv_size _ _ H (length m - 1 - S k) ltac:(lia)) as S1. replace (S (length m - 1 - S k)) with (length m - 1 - k) in S1 by lia.
      specialize (IH ltac:(lia)). rewrite Nat2Z.inj_succ, <- Z.add_1_r, inject_Z_plus. change (inject_Z 1) with 1%Q. lra. }
  specialize (K (length m - 1) ltac:(lia)). rewrite Nat.sub_diag in K. exact K.
Qed.
Lemma inv_second m prev : inv m prev -> 2 <= length m -> (inject_Z (Z.of_nat (length m - 2)) * d < s_end)%Q.
Proof.
  intros H Hl. pose proof (iv_before _ _ H 1 ltac:(lia)) as Hb.
  assert (K : forall k, k <= length m - 1 -> (inject_Z (Z.of_nat k) * d <= nd m (length m - 1 - k))%Q).
  { induction k as [|k IH]; intros Hk.
    - rewrite Nat.sub_0_r. rewrite (iv_zero _ _ H). change (inject_Z (Z.of_nat 0)) with 0%Q. lra.
    - pose proof (iv_size _ _ H (length m - 1 - S k) ltac:(lia)) as S1. replace (S (length m - 1 - S k)) with (length m - 1 - k) in S1 by lia.
      specialize (IH ltac:(lia)). rewrite Nat2Z.inj_succ, <- Z.add_1_r, inject_Z_plus. change (inject_Z 1) with 1%Q. lra. }
  specialize (K (length m - 2) ltac:(lia)). replace (length m - 1 - (length m - 2)) with 1 in K by lia. lra.
Qed.

(** the squashed mesh *)
Section Squashed.
Context (m : list Q) (prev : Q) (H : inv m prev) (He : (s_end <= nd m 0)%Q) (Hn : 7 <= length m).
Definition M : list Q := rev m.
Definition base : Q := nd M (length M - 7).
Definition dsq : Q := ((s_end - base) / 6)%Q.

Lemma M_len : length M = length m.
Proof. apply rev_length. Qed.
Lemma M_nd i : i < length m -> nd M i = nd m (length m - 1 - i).
Proof. intros Hi. unfold nd, M. rewrite rev_nth by exact Hi. f_equal. lia. Qed.

Lemma M_size i : S i < length m -> (d <= nd M (S i) - nd M i <= D)%Q.
Proof.
  intros Hi. rewrite !M_nd by lia. pose proof (iv_size _ _ H (length m - 1 - S i) ltac:(lia)) as G.
  replace (S (length m - 1 - S i)) with (length m - 1 - i) in G by lia. exact G.
Qed.
Lemma M_grade i : S (S i) < length m -> graded r (nd M (S (S i)) - nd M (S i)) (nd M (S i) - nd M i).
Proof.
  intros Hi. rewrite !M_nd by lia. pose proof (iv_grade _ _ H (length m - 1 - S (S i)) ltac:(lia)) as G.
  replace (S (length m - 1 - S (S i))) with (length m - 1 - S i) in G by lia. replace (S (length m - 1 - S i)) with (length m - 1 - i) in G by lia. exact G.
Qed.
Lemma M_first : (nd M 0 == 0)%Q.
Proof. rewrite M_nd by lia. rewrite Nat.sub_0_r. exact (iv_zero _ _ H). Qed.
Lemma M_before i : S i < length m -> (nd M i < s_end)%Q.
Proof. intros Hi. rewrite M_nd by lia. apply (iv_before _ _ H). lia. Qed.
Lemma M_last : (s_end <= nd M (length m - 1))%Q.
Proof. rewrite M_nd by lia. rewrite Nat.sub_diag. exact He. Qed.

Lemma dsq_pos : (0 < dsq)%Q.
Proof.
  unfold dsq, base. rewrite M_len. pose proof (M_before (length m - 7) ltac:(lia)). apply Qlt_shift_div_l; lra.
Qed.
Lemma dsq_six : (base + 6 * dsq == s_end)%Q.
Proof. unfold dsq. field. Qed.

Definition SQ : list Q := firstn (length M - 6) M ++ map (fun i => base + inject_Z (Z.of_nat (i + 1)) * dsq)%Q (seq 0 6).
Lemma squash_eq : squash s_end M = Ok SQ.
Proof. unfold squash. rewrite M_len. destruct (length m <? 7) eqn:E; [apply Nat.ltb_lt in E; lia|]. unfold SQ, dsq, base. rewrite M_len. reflexivity. Qed.
Lemma SQ_len : length SQ = length m.
Proof. unfold SQ. rewrite app_length, firstn_length, map_length, seq_length, M_len. lia. Qed.
Lemma nth_firstn_lt {A} (l : list A) n k x : k < n -> nth k (firstn n l) x = nth k l x.
Proof. revert n k. induction l as [|a l IH]; intros [|n] [|k] L; cbn; try reflexivity; try lia. apply IH. lia. Qed.
Lemma SQ_old i : i <= length m - 7 -> nd SQ i = nd M i.
Proof.
  intros Hi. unfold nd, SQ. rewrite app_nth1 by (rewrite firstn_length, M_len; lia). apply nth_firstn_lt. rewrite M_len. lia.
Qed.
Lemma SQ_new j : j <= 6 -> (nd SQ (length m - 7 + j) == base + inject_Z (Z.of_nat j) * dsq)%Q.
Proof.
  intros Hj. destruct j as [|j].
  - rewrite Nat.add_0_r, SQ_old by lia. unfold base. rewrite M_len. change (inject_Z (Z.of_nat 0)) with 0%Q. ring.
  - unfold nd, SQ. rewrite app_nth2 by (rewrite firstn_length, M_len; lia).
    rewrite firstn_length, M_len, Nat.min_l by lia. replace (length m - 7 + S j - (length m - 6)) with j by lia.
    destruct j as [|[|[|[|[|[|j]]]]]]; try lia; cbn [seq map nth]; reflexivity.
Qed.
Lemma SQ_tail_size j : j < 6 -> (nd SQ (S (length m - 7 + j)) - nd SQ (length m - 7 + j) == dsq)%Q.
Proof.
  intros Hj. rewrite <- Nat.add_succ_r. rewrite !SQ_new by lia. rewrite Nat2Z.inj_succ, <- Z.add_1_r, inject_Z_plus. change (inject_Z 1) with 1%Q. ring.
Qed.

Lemma SQ_covers : covers SQ s_end.
Proof.
  unfold covers, node. fold (nd SQ). rewrite SQ_len. split; [lia|]. change (nth ?i SQ 0%Q) with (nd SQ i).
  split; [unfold nd; fold (nd SQ 0); change (nth 0 SQ 0%Q) with (nd SQ 0); rewrite SQ_old by lia; exact M_first|].
  split.
  - change (nth (length m - 1) SQ 0%Q) with (nd SQ (length m - 1)). replace (length m - 1) with (length m - 7 + 6) by lia. rewrite SQ_new by lia. exact dsq_six.
  - intros i Hi. change (nth i SQ 0 < nth (S i) SQ 0)%Q with (nd SQ i < nd SQ (S i))%Q.
    destruct (Nat.lt_ge_cases i (length m - 7)) as [L|L].
    + rewrite !SQ_old by lia. pose proof (M_size i ltac:(lia)). lra.
    + pose proof (SQ_tail_size (i - (length m - 7)) ltac:(lia)) as T. replace (length m - 7 + (i - (length m - 7))) with i in T by lia. pose proof dsq_pos. lra.
Qed.

Lemma finish_track closed : track_mesh closed (finish_mesh closed SQ) s_end.
Proof.
  unfold track_mesh, finish_mesh. cbn [mr_length mr_s].
  assert (NE : SQ <> []) by (intros E; pose proof SQ_len as L; rewrite E in L; cbn in L; lia).
  assert (L : (last SQ 0 == s_end)%Q).
  { destruct SQ_covers as (_ & _ & L & _). unfold node in L.
    assert (E : last SQ 0%Q = nth (length SQ - 1) SQ 0%Q); [|rewrite E; exact L].
    clear. induction SQ as [|a l IH]; [reflexivity|]. destruct l as [|b l]; [reflexivity|].
    change (last (a :: b :: l) 0%Q) with (last (b :: l) 0%Q). rewrite IH. cbn [length]. rewrite !Nat.sub_succ, !Nat.sub_0_r. reflexivity. }
  split; [exact L|]. destruct closed; [|exact SQ_covers]. rewrite <- app_removelast_last by exact NE. exact SQ_covers.
Qed.
End Squashed.
End Loop.

(** sizes of a table *)
Lemma pwl_bounds d D : forall tab s,
  (forall i, S i < length tab -> (fst (nth i tab (0, 0)) < fst (nth (S i) tab (0, 0)))%Q) ->
  (forall i, i < length tab -> (d <= snd (nth i tab (0, 0)) <= D)%Q) -> tab <> [] -> (d <= pwl tab s <= D)%Q.
Proof.
  induction tab as [|[s0 v0] tab IH]; intros s Hi Hb Hne; [congruence|].
  pose proof (Hb 0 ltac:(cbn; lia)) as B0. cbn in B0. destruct tab as [|[s1 v1] tab']; [exact B0|].
  pose proof (Hb 1 ltac:(cbn; lia)) as B1. cbn in B1. pose proof (Hi 0 ltac:(cbn; lia)) as I0. cbn in I0.
  change (pwl ((s0, v0) :: (s1, v1) :: tab') s) with
    (if Qlt_bool s s0 then v0 else if Qlt_bool s s1 then (v0 + (s - s0) / (s1 - s0) * (v1 - v0))%Q else pwl ((s1, v1) :: tab') s).
  destruct (Qlt_bool s s0) eqn:E0; [exact B0|]. apply Qlt_bool_false in E0.
  destruct (Qlt_bool s s1) eqn:E1.
  - apply Qlt_bool_iff in E1. set (t := ((s - s0) / (s1 - s0))%Q).
    assert (T : (0 <= t <= 1)%Q). { unfold t. split; [apply Qle_shift_div_l; lra|apply Qle_shift_div_r; lra]. }
    assert (A1 : (0 <= t * (v1 - d))%Q) by (apply Qmult_le_0_compat; lra).
    assert (A2 : (0 <= (1 - t) * (v0 - d))%Q) by (apply Qmult_le_0_compat; lra).
    assert (A3 : (0 <= t * (D - v1))%Q) by (apply Qmult_le_0_compat; lra).
    assert (A4 : (0 <= (1 - t) * (D - v0))%Q) by (apply Qmult_le_0_compat; lra). split; lra.
  - apply IH; [| |congruence].
    + intros i L. apply (Hi (S i)). cbn in *. lia.
    + intros i L. apply (Hb (S i)). cbn in *. lia.
Qed.

Lemma last_nth_pair {A} (l : list A) x : last l x = nth (length l - 1) l x.
Proof.
  induction l as [|a l IH]; [reflexivity|]. destruct l as [|b l]; [reflexivity|].
  change (last (a :: b :: l) x) with (last (b :: l) x). rewrite IH. cbn [length]. rewrite !Nat.sub_succ, !Nat.sub_0_r. reflexivity.
Qed.
Lemma table_size_bounds tab d D s : size_table tab d D -> (d <= table_size tab s <= D)%Q.
Proof.
  intros (Hne & _ & Hi & Hb). unfold table_size. destruct (Qlt_bool s (fst (last tab (0, 0)%Q))).
  - apply pwl_bounds; assumption.
  - rewrite last_nth_pair. apply Hb. destruct tab; [congruence|cbn; lia].
Qed.
Lemma table_pwl_bounds tab d D s : size_table tab d D -> (d <= pwl tab s <= D)%Q.
Proof. intros (Hne & _ & Hi & Hb). apply pwl_bounds; assumption. Qed.

(** powers of the ratio along a graded chain *)
Lemma pow_pos_S r n : (1 <= r)%Q -> (0 < r ^ Z.of_nat n)%Q /\ (r ^ Z.of_nat (S n) == r ^ Z.of_nat n * r)%Q.
Proof.
  intros Hr. assert (E : forall k, (r ^ Z.of_nat (S k) == r ^ Z.of_nat k * r)%Q).
  { intros k. rewrite Nat2Z.inj_succ, <- Z.add_1_r. rewrite Qpower_plus by (intros Z0; rewrite Z0 in Hr; lra). reflexivity. }
  split; [|apply E]. induction n as [|n IH]; [reflexivity|]. rewrite E. nra.
Qed.
Lemma graded_chain r a : (1 <= r)%Q -> (forall k, 0 <= a k)%Q -> forall n, (forall k, k < n -> graded r (a (S k)) (a k)) ->
  (a n <= r ^ Z.of_nat n * a O /\ a O <= r ^ Z.of_nat n * a n)%Q.
Proof.
  intros Hr Ha. induction n as [|n IH]; intros Hg.
  - cbn. split; ring_simplify; apply Qle_refl.
  - specialize (IH ltac:(intros k Hk; apply Hg; lia)). destruct (Hg n ltac:(lia)) as [G1 G2].
    destruct (pow_pos_S r n Hr) as [Hp E].
    rewrite E. destruct IH as [I1 I2]. split.
    + apply Qle_trans with (r * a n)%Q; [exact G1|]. apply Qle_trans with (r * (r ^ Z.of_nat n * a O))%Q.
      * rewrite Qmult_comm, (Qmult_comm r). apply Qmult_le_compat_r; [exact I1|lra].
      * apply Qle_lteq. right. ring.
    + apply Qle_trans with (r ^ Z.of_nat n * a n)%Q; [exact I2|]. apply Qle_trans with (r ^ Z.of_nat n * (r * a (S n)))%Q.
      * rewrite !(Qmult_comm (r ^ Z.of_nat n)). apply Qmult_le_compat_r; [exact G2|lra].
      * apply Qle_lteq. right. ring.
Qed.
Lemma pow_mono r a b : (1 <= r)%Q -> a <= b -> (r ^ Z.of_nat a <= r ^ Z.of_nat b)%Q.
Proof.
  intros Hr Hab. induction b as [|b IH]; [replace a with 0 by lia; apply Qle_refl|].
  destruct (Nat.eq_dec a (S b)) as [->|]; [apply Qle_refl|]. specialize (IH ltac:(lia)).
  destruct (pow_pos_S r b Hr) as [Hp E].
  rewrite E. nra.
Qed.

(** sizes that are not positive *)
Lemma nonpositive_forever f r s_end fuel : (0 < r)%Q -> forall back m prev, (back <= 0)%Q -> (0 < s_end)%Q -> (prev <= 0)%Q ->
  mesh_loop fuel f r s_end (back :: m) prev = None.
Proof.
  intros Hr. induction fuel as [|fuel IH]; intros back m prev Hb Hs Hp; rewrite mesh_loop_eq;
  (assert (B : Qlt_bool back s_end = true) by (apply Qlt_bool_iff; lra)); rewrite B; [reflexivity|].
  assert (C : (clamp_ds r prev (f back) <= 0)%Q).
  { assert (P1 : (r * prev <= 0)%Q) by nra. assert (P2 : (prev / r <= 0)%Q) by (apply Qle_shift_div_r; lra).
    unfold clamp_ds. destruct (Qlt_bool (r * prev) (f back)) eqn:E1; [exact P1|]. apply Qlt_bool_false in E1.
    destruct (Qlt_bool (f back) (prev / r)); [exact P2|]. lra. }
  apply IH; [lra|exact Hs|exact C].
Qed.

Lemma loop_more f r s_end fuel : forall m prev x, mesh_loop fuel f r s_end m prev = Some x -> forall fuel', fuel <= fuel' -> mesh_loop fuel' f r s_end m prev = Some x.
Proof.
  induction fuel as [|fuel IH]; intros [|back m] prev x E fuel' Hle; try discriminate; rewrite mesh_loop_eq in *.
  - destruct (Qlt_bool back s_end); [discriminate|exact E].
  - destruct (Qlt_bool back s_end); [|exact E]. destruct fuel' as [|fuel']; [lia|]. apply (IH _ _ _ E). lia.
Qed.
Lemma loop_det f r s_end m prev fuel fuel' x y : mesh_loop fuel f r s_end m prev = Some x -> mesh_loop fuel' f r s_end m prev = Some y -> x = y.
Proof.
  intros E1 E2. destruct (Nat.le_ge_cases fuel fuel') as [L|L].
  - pose proof (loop_more _ _ _ _ _ _ _ E1 _ L). congruence.
  - pose proof (loop_more _ _ _ _ _ _ _ E2 _ L). congruence.
Qed.

(** From the loop to the whole generation. *)
Definition complete (closed : bool) (s_end : Q) (o : option (list Q)) : option (res mesh_result) :=
  match o with
  | None => None
  | Some m => Some (bind (squash s_end (rev m)) (fun m' => Ok (finish_mesh closed m')))
  end.

Section Whole.
Context (f : Q -> Q) (r s_end d D : Q) (closed : bool) (m0 : list Q) (prev0 : Q).
Context (Hr : (1 <= r)%Q) (Hd : (0 < d)%Q) (Hs : (0 < s_end)%Q).
Context (Hf : forall s, (0 <= s < s_end)%Q -> (d <= f s <= D)%Q) (H0 : inv r s_end d D m0 prev0).
Definition run (fuel : nat) : option (res mesh_result) := complete closed s_end (mesh_loop fuel f r s_end m0 prev0).

Lemma whole_mesh : exists m prev, inv r s_end d D m prev /\ (s_end <= nd m 0)%Q /\ length m0 <= length m /\
  yields run (bind (squash s_end (rev m)) (fun m' => Ok (finish_mesh closed m'))).
Proof.
  assert (E : exists m, mesh_loop (enough s_end d) f r s_end m0 prev0 = Some m).
  { apply (loop_ends f r s_end d D Hr Hd Hf); [exact H0|]. apply enough_spec; [exact Hd|].
    apply (inv_nonneg r s_end d D Hd _ _ H0). exact (iv_len _ _ _ _ _ _ H0). }
  destruct E as (m & E). destruct (loop_inv f r s_end d D Hr Hd Hf _ _ _ _ H0 E) as (p & I & L & N).
  exists m, p. split; [exact I|]. split; [exact L|]. split; [exact N|]. split.
  - exists (enough s_end d). unfold run. rewrite E. reflexivity.
  - intros fuel y Hy. unfold run in Hy. destruct (mesh_loop fuel f r s_end m0 prev0) as [m'|] eqn:E'; [|discriminate].
    rewrite (loop_det _ _ _ _ _ _ _ _ _ E' E) in Hy. cbn [complete] in Hy. congruence.
Qed.

Lemma whole_terminates : exists x, yields run x.
Proof. destruct whole_mesh as (m & p & _ & _ & _ & Y). eexists. exact Y. Qed.

Lemma long_enough m p : inv r s_end d D m p -> (s_end <= nd m 0)%Q -> (5 * D < s_end)%Q -> 7 <= length m.
Proof.
  intros I L H5. pose proof (inv_reach r s_end d D m p I L) as R. destruct (Nat.lt_ge_cases (length m) 7) as [Hl|Hl]; [|exact Hl]. exfalso.
  assert (K : (inject_Z (Z.of_nat (length m - 1)) <= 5)%Q) by (change 5%Q with (inject_Z 5); rewrite <- Zle_Qle; lia).
  pose proof (iv_prev _ _ _ _ _ _ I) as P. assert (0 <= D)%Q by lra. nra.
Qed.
Lemma whole_ok : (5 * D < s_end)%Q -> exists x, yields run (Ok x) /\ track_mesh closed x s_end.
Proof.
  intros H5. destruct whole_mesh as (m & p & I & L & _ & Y). pose proof (long_enough m p I L H5) as Hn.
  change (rev m) with (M m) in Y. rewrite (squash_eq s_end m Hn) in Y. cbn [bind] in Y.
  eexists. split; [exact Y|]. apply (finish_track r s_end d D Hd m p I Hn).
Qed.
Lemma whole_short : length m0 <= 2 -> (s_end <= 5 * d)%Q -> yields run UB.
Proof.
  intros Hm H5. destruct whole_mesh as (m & p & I & L & _ & Y).
  assert (Hn : length m < 7).
  { destruct (Nat.lt_ge_cases (length m) 7) as [Hl|Hl]; [exact Hl|]. exfalso. pose proof (inv_second r s_end d D m p I ltac:(lia)) as R.
    assert (K : (5 <= inject_Z (Z.of_nat (length m - 2)))%Q) by (change 5%Q with (inject_Z 5); rewrite <- Zle_Qle; lia). nra. }
  unfold squash in Y. rewrite rev_length in Y. apply Nat.ltb_lt in Hn. rewrite Hn in Y. exact Y.
Qed.

(** what is known of a result *)
Lemma whole_result x : yields run (Ok x) -> exists m p, inv r s_end d D m p /\ (s_end <= nd m 0)%Q /\ 7 <= length m /\ all_points closed x = SQ s_end m.
Proof.
  intros [_ Hx]. destruct whole_mesh as (m & p & I & L & _ & [[fuel Y] _]). specialize (Hx fuel _ Y).
  exists m, p. split; [exact I|]. split; [exact L|].
  assert (E : 7 <= length m).
  { destruct (Nat.lt_ge_cases (length m) 7) as [Hl|Hl]; [|exact Hl]. exfalso. unfold squash in Hx. rewrite rev_length in Hx.
    apply Nat.ltb_lt in Hl. rewrite Hl in Hx. discriminate. }
  split; [exact E|]. change (rev m) with (M m) in Hx. rewrite (squash_eq s_end m E) in Hx. cbn [bind] in Hx. injection Hx as <-.
  unfold all_points, finish_mesh. cbn [mr_s mr_length]. destruct closed; [|reflexivity].
  rewrite <- app_removelast_last; [reflexivity|]. intros Z. pose proof (SQ_len s_end m E) as Z'. rewrite Z in Z'. cbn in Z'. lia.
Qed.
End Whole.

Section Grading.
Context (r s_end d D : Q) (m : list Q) (p : Q).
Context (Hr : (1 <= r)%Q) (Hd : (0 < d)%Q) (I : inv r s_end d D m p) (L : (s_end <= nd m 0)%Q) (Hn : 7 <= length m).
Notation S_ := (SQ s_end m).

Lemma sq_size i : size_of S_ i = (nd S_ (S i) - nd S_ i)%Q.
Proof. reflexivity. Qed.
Lemma sq_head i : S (S i) <= length m - 7 -> graded r (size_of S_ (S i)) (size_of S_ i).
Proof. intros Hi. rewrite !sq_size, !(SQ_old s_end m Hn) by lia. apply (M_grade r s_end d D m p I); lia. Qed.
Lemma sq_tail i : length m - 7 <= i -> S i < length m -> (size_of S_ i == dsq s_end m)%Q.
Proof.
  intros H1 H2. rewrite sq_size. pose proof (SQ_tail_size s_end m Hn (i - (length m - 7)) ltac:(lia)) as T.
  replace (length m - 7 + (i - (length m - 7))) with i in T by lia. exact T.
Qed.

(** bounds of the squashed size by the original sizes of the last six elements *)
Definition orig (k : nat) : Q := (nd (M m) (S (length m - 8 + k)) - nd (M m) (length m - 8 + k))%Q.
Lemma six_upper : 8 <= length m -> (6 * dsq s_end m <= orig 1 + orig 2 + orig 3 + orig 4 + orig 5 + orig 6)%Q.
Proof.
  intros H8. pose proof (dsq_six s_end m) as E. unfold base in E. rewrite M_len in E. unfold orig.
  pose proof (M_last s_end m L Hn) as B.
  replace (length m - 8 + 1) with (length m - 7) by lia. replace (length m - 8 + 2) with (S (length m - 7)) by lia.
  replace (length m - 8 + 3) with (S (S (length m - 7))) by lia. replace (length m - 8 + 4) with (S (S (S (length m - 7)))) by lia.
  replace (length m - 8 + 5) with (S (S (S (S (length m - 7))))) by lia. replace (length m - 8 + 6) with (S (S (S (S (S (length m - 7)))))) by lia.
  replace (length m - 1) with (S (S (S (S (S (S (length m - 7))))))) in B by lia. lra.
Qed.
Lemma six_lower : 8 <= length m -> (orig 1 + orig 2 + orig 3 + orig 4 + orig 5 < 6 * dsq s_end m)%Q.
Proof.
  intros H8. pose proof (dsq_six s_end m) as E. unfold base in E. rewrite M_len in E. unfold orig.
  pose proof (M_before r s_end d D m p I Hn (length m - 2) ltac:(lia)) as B.
  replace (length m - 8 + 1) with (length m - 7) by lia. replace (length m - 8 + 2) with (S (length m - 7)) by lia.
  replace (length m - 8 + 3) with (S (S (length m - 7))) by lia. replace (length m - 8 + 4) with (S (S (S (length m - 7)))) by lia.
  replace (length m - 8 + 5) with (S (S (S (S (length m - 7))))) by lia.
  replace (length m - 2) with (S (S (S (S (S (length m - 7)))))) in B by lia. lra.
Qed.
Lemma orig_size k : 8 <= length m -> k <= 6 -> (d <= orig k <= D)%Q.
Proof. intros H8 Hk. apply (M_size r s_end d D m p I); lia. Qed.
Lemma orig_chain k : 8 <= length m -> k <= 6 -> (orig k <= r ^ Z.of_nat k * orig 0 /\ orig 0 <= r ^ Z.of_nat k * orig k)%Q.
Proof.
  intros H8 Hk. pose (a := fun k => if k <=? 6 then orig k else 0%Q).
  assert (C := graded_chain r a Hr). assert (A : forall k, k <= 6 -> a k = orig k) by (intros j Hj; unfold a; apply Nat.leb_le in Hj; rewrite Hj; reflexivity).
  specialize (C ltac:(intros j; unfold a; destruct (j <=? 6) eqn:E; [apply Nat.leb_le in E; pose proof (orig_size j H8 E); lra|lra]) k).
  rewrite !A in C by lia. apply C. intros j Hj. rewrite !A by lia. unfold orig.
  replace (length m - 8 + S j) with (S (length m - 8 + j)) by lia. apply (M_grade r s_end d D m p I); lia.
Qed.
Lemma sq_joint : 8 <= length m -> (dsq s_end m <= r ^ 6 * orig 0 /\ 5 * orig 0 <= 6 * (r ^ 5 * dsq s_end m))%Q.
Proof.
  intros H8. assert (P : forall k, k <= 6 -> (0 < orig k)%Q) by (intros k Hk; pose proof (orig_size k H8 Hk); lra). split.
  - pose proof (six_upper H8). change (r ^ 6)%Q with (r ^ Z.of_nat 6)%Q.
    assert (K : forall k, k <= 6 -> (orig k <= r ^ Z.of_nat 6 * orig 0)%Q).
    { intros k Hk. destruct (orig_chain k H8 Hk) as [C _]. pose proof (pow_mono r k 6 Hr Hk). pose proof (P 0 ltac:(lia)). apply Qle_trans with (r ^ Z.of_nat k * orig 0)%Q; [exact C|].
      apply Qmult_le_compat_r; [assumption|lra]. }
    pose proof (K 1 ltac:(lia)). pose proof (K 2 ltac:(lia)). pose proof (K 3 ltac:(lia)). pose proof (K 4 ltac:(lia)). pose proof (K 5 ltac:(lia)). pose proof (K 6 ltac:(lia)). lra.
  - pose proof (six_lower H8). change (r ^ 5)%Q with (r ^ Z.of_nat 5)%Q. destruct (pow_pos_S r 5 Hr) as [Hp _].
    assert (K : forall k, k <= 5 -> (orig 0 <= r ^ Z.of_nat 5 * orig k)%Q).
    { intros k Hk. destruct (orig_chain k H8 ltac:(lia)) as [_ C]. pose proof (pow_mono r k 5 Hr Hk). pose proof (P k ltac:(lia)). apply Qle_trans with (r ^ Z.of_nat k * orig k)%Q; [exact C|].
      apply Qmult_le_compat_r; [assumption|lra]. }
    pose proof (K 1 ltac:(lia)). pose proof (K 2 ltac:(lia)). pose proof (K 3 ltac:(lia)). pose proof (K 4 ltac:(lia)). pose proof (K 5 ltac:(lia)).
    apply Qle_trans with (r ^ Z.of_nat 5 * (orig 1 + orig 2 + orig 3 + orig 4 + orig 5))%Q; [lra|].
    apply Qle_trans with (r ^ Z.of_nat 5 * (6 * dsq s_end m))%Q; [|lra].
    rewrite !(Qmult_comm (r ^ Z.of_nat 5)). apply Qmult_le_compat_r; lra.
Qed.
End Grading.

(** initial states *)
Lemma inv_init r s_end d D prev : (d <= prev <= D)%Q -> inv r s_end d D [0%Q] prev.
Proof. intros H. split; cbn; try lia; try lra. Qed.
Lemma inv_init2 r s_end d D ds0 : (0 < s_end)%Q -> (d <= ds0 <= D)%Q -> inv r s_end d D [ds0; 0%Q] ds0.
Proof.
  intros Hs H. split; cbn.
  - lia.
  - exact H.
  - intros _. ring.
  - intros [|i] Hi; [cbn; lra|lia].
  - intros i Hi. lia.
  - reflexivity.
  - intros [|[|i]] Hi; [lia|exact Hs|lia].
Qed.
