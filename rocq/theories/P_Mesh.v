(** C38, C39 and C69: the mesh of a computed centreline. *)
From Coq Require Import QArith Qpower Lqa Bool Arith ZArith Lia List.
From Verif Require Import M_Controls M_Mesh S_Mesh L_Colloc3 L_Mesh.
Import ListNotations.
Local Open Scope nat_scope.

(** C38. For every table of sizes between d > 0 and D the generation ends, and on a track
    longer than five elements of the largest size the mesh starts at 0, increases strictly
    and ends at the requested length, which is the reported track length. Missing: shorter
    tracks, see [C38_short_track_refuted]. *)
Theorem C38_distribution_mesh_partial : forall closed tab r s_end d D,
  (1 <= r)%Q -> (0 < d)%Q -> size_table tab d D -> (0 < s_end)%Q -> (5 * D < s_end)%Q ->
  exists x, yields (fun fuel => mesh_distribution fuel closed tab r s_end) (Ok x) /\ track_mesh closed x s_end.
Proof.
  intros closed tab r s_end d D Hr Hd Ht Hs H5.
  apply (whole_ok (table_size tab) r s_end d D closed [0%Q] (pwl tab 0) Hr Hd); [|apply inv_init; apply table_pwl_bounds; exact Ht|exact H5].
  intros s _. apply table_size_bounds. exact Ht.
Qed.
Theorem C38_breakpoints_mesh_partial : forall closed f ds0 r s_end d D,
  (1 <= r)%Q -> (0 < d)%Q -> (d <= ds0 <= D)%Q -> (forall s, 0 <= s < s_end -> d <= f s <= D)%Q -> (0 < s_end)%Q -> (5 * D < s_end)%Q ->
  exists x, yields (fun fuel => mesh_breakpoints fuel closed f ds0 r s_end) (Ok x) /\ track_mesh closed x s_end.
Proof.
  intros closed f ds0 r s_end d D Hr Hd H0 Hf Hs H5.
  apply (whole_ok f r s_end d D closed [ds0; 0%Q] ds0 Hr Hd); [exact Hf|apply inv_init2; assumption|exact H5].
Qed.
Theorem C38_equispaced_mesh : forall closed n L, 0 < n -> (0 < L)%Q ->
  track_mesh closed (mesh_equispaced closed n L) L /\ length (mr_s (mesh_equispaced closed n L)) = if closed then n else n + 1.
Proof.
  intros closed n L Hn HL. unfold track_mesh, mesh_equispaced. cbn [mr_length mr_s].
  set (g := fun i => (inject_Z (Z.of_nat i) * (L / inject_Z (Z.of_nat n)))%Q). set (pts := map g (seq 0 (n + 1))).
  assert (Hl : length pts = n + 1) by (unfold pts; rewrite map_length, seq_length; reflexivity).
  assert (Hg : forall i, i < n + 1 -> node pts i = g i).
  { intros i Hi. unfold node, pts. rewrite (nth_indep _ 0%Q (g 0)) by (rewrite map_length, seq_length; exact Hi). rewrite map_nth, seq_nth by exact Hi. reflexivity. }
  assert (Pn : (0 < inject_Z (Z.of_nat n))%Q) by (change 0%Q with (inject_Z 0); rewrite <- Zlt_Qlt; lia).
  assert (Hs : (0 < L / inject_Z (Z.of_nat n))%Q) by (apply Qlt_shift_div_l; lra).
  assert (En : (g n == L)%Q) by (unfold g; rewrite Qmult_div_r; [reflexivity|intros E; rewrite E in Pn; lra]).
  assert (Cov : forall q, (forall i, i < n + 1 -> (node q i == g i)%Q) -> length q = n + 1 -> covers q L).
  { intros q Hq Hlq. split; [lia|]. split; [rewrite Hq by lia; unfold g; change (inject_Z (Z.of_nat 0)) with 0%Q; ring|].
    split; [rewrite Hlq, Hq by lia; replace (n + 1 - 1) with n by lia; exact En|].
    intros i Hi. rewrite !Hq by lia. unfold g. rewrite Nat2Z.inj_succ, <- Z.add_1_r, inject_Z_plus. change (inject_Z 1) with 1%Q. lra. }
  split.
  - split; [reflexivity|]. destruct closed; [|apply Cov; [intros i Hi; rewrite Hg by exact Hi; reflexivity|exact Hl]].
    assert (E : removelast pts = map g (seq 0 n)).
    { unfold pts. rewrite seq_app, map_app. cbn [seq map]. rewrite removelast_last. reflexivity. }
    rewrite E. apply Cov; [|rewrite app_length, map_length, seq_length; reflexivity].
    intros i Hi. unfold node. destruct (Nat.eq_dec i n) as [->|].
    + rewrite app_nth2 by (rewrite map_length, seq_length; lia). rewrite map_length, seq_length, Nat.sub_diag. cbn. symmetry. exact En.
    + rewrite app_nth1 by (rewrite map_length, seq_length; lia). rewrite (nth_indep _ 0%Q (g 0)) by (rewrite map_length, seq_length; lia).
      rewrite map_nth, seq_nth by lia. reflexivity.
  - destruct closed; [|exact Hl]. unfold pts. rewrite seq_app, map_app. cbn [seq map]. rewrite removelast_last, map_length, seq_length. reflexivity.
Qed.

(** The generation always ends when the sizes are bounded away from zero. *)
Theorem C38_generation_ends : forall closed tab r s_end d D,
  (1 <= r)%Q -> (0 < d)%Q -> size_table tab d D -> (0 < s_end)%Q ->
  exists x, yields (fun fuel => mesh_distribution fuel closed tab r s_end) x.
Proof.
  intros closed tab r s_end d D Hr Hd Ht Hs.
  apply (whole_terminates (table_size tab) r s_end d D closed [0%Q] (pwl tab 0) Hr Hd); [|apply inv_init; apply table_pwl_bounds; exact Ht].
  intros s _. apply table_size_bounds. exact Ht.
Qed.

(** Without the hypothesis on the length: on every track shorter than five of the smallest
    elements the squash of the last six elements reads outside of the mesh. *)
Theorem C38_short_track_refuted : forall closed tab r s_end d D,
  (1 <= r)%Q -> (0 < d)%Q -> size_table tab d D -> (0 < s_end)%Q -> (s_end <= 5 * d)%Q ->
  yields (fun fuel => mesh_distribution fuel closed tab r s_end) UB.
Proof.
  intros closed tab r s_end d D Hr Hd Ht Hs H5.
  apply (whole_short (table_size tab) r s_end d D closed [0%Q] (pwl tab 0) Hr Hd Hs); [|apply inv_init; apply table_pwl_bounds; exact Ht|cbn; lia|exact H5].
  intros s _. apply table_size_bounds. exact Ht.
Qed.
Theorem C38_short_track_breakpoints_refuted : forall closed f ds0 r s_end d D,
  (1 <= r)%Q -> (0 < d)%Q -> (d <= ds0 <= D)%Q -> (forall s, 0 <= s < s_end -> d <= f s <= D)%Q -> (0 < s_end)%Q -> (s_end <= 5 * d)%Q ->
  yields (fun fuel => mesh_breakpoints fuel closed f ds0 r s_end) UB.
Proof.
  intros closed f ds0 r s_end d D Hr Hd H0 Hf Hs H5.
  apply (whole_short f r s_end d D closed [ds0; 0%Q] ds0 Hr Hd Hs); [exact Hf|apply inv_init2; assumption|cbn; lia|exact H5].
Qed.

(** A table whose first size is zero or negative makes the generation run forever, whatever
    follows. *)
Theorem C38_nonpositive_first_size_never_ends : forall closed tab r s_end,
  (0 < r)%Q -> (0 < s_end)%Q -> (pwl tab 0 <= 0)%Q -> never_ends (fun fuel => mesh_distribution fuel closed tab r s_end).
Proof.
  intros closed tab r s_end Hr Hs Hp fuel. unfold mesh_distribution. rewrite nonpositive_forever; [reflexivity|exact Hr|apply Qle_refl|exact Hs|exact Hp].
Qed.

(** C39. Sizes of neighbouring elements are within the ratio r, except where the last six
    elements begin. These six have one size, at most r^6 times the size of the element before
    them and at least 5/(6 r^5) of it. *)
Theorem C39_grading_partial : forall closed tab r s_end d D x n,
  (1 <= r)%Q -> (0 < d)%Q -> size_table tab d D -> (0 < s_end)%Q ->
  yields (fun fuel => mesh_distribution fuel closed tab r s_end) (Ok x) -> n = length (all_points closed x) ->
  (forall i, S (S i) <= n - 7 -> graded r (size_of (all_points closed x) (S i)) (size_of (all_points closed x) i)) /\
  (forall i j, n - 7 <= i < n - 1 -> n - 7 <= j < n - 1 -> (size_of (all_points closed x) i == size_of (all_points closed x) j)%Q) /\
  (8 <= n -> (size_of (all_points closed x) (n - 7) <= r ^ 6 * size_of (all_points closed x) (n - 8))%Q /\
             (5 * size_of (all_points closed x) (n - 8) <= 6 * (r ^ 5 * size_of (all_points closed x) (n - 7)))%Q).
Proof.
  intros closed tab r s_end d D x n Hr Hd Ht Hs Y Hn.
  destruct (whole_result (table_size tab) r s_end d D closed [0%Q] (pwl tab 0) Hr Hd) with (x := x) as (m & p & I & L & Hl & E).
  - intros s _. apply table_size_bounds. exact Ht.
  - apply inv_init. apply table_pwl_bounds. exact Ht.
  - exact Y.
  - rewrite E in *. rewrite (SQ_len s_end m Hl) in Hn. subst n. split; [|split].
    + intros i Hi. apply (sq_head r s_end d D m p); assumption.
    + intros i j Hi Hj. rewrite (sq_tail s_end m Hl i), (sq_tail s_end m Hl j) by lia. reflexivity.
    + intros H8. rewrite (sq_tail s_end m Hl (length m - 7)) by lia.
      assert (O : size_of (SQ s_end m) (length m - 8) = orig m 0).
      { rewrite sq_size. replace (S (length m - 8)) with (length m - 7) by lia. rewrite !(SQ_old s_end m Hl) by lia. unfold orig.
        rewrite Nat.add_0_r. replace (S (length m - 8)) with (length m - 7) by lia. reflexivity. }
      rewrite O. apply (sq_joint r s_end d D m p); assumption.
Qed.

(** With one size for the whole track the ratio of any two neighbours is at most 6/5, the
    default limit. *)
Theorem C39_constant_size : forall closed tab r s_end d x n,
  (1 <= r)%Q -> (0 < d)%Q -> size_table tab d d -> (0 < s_end)%Q ->
  yields (fun fuel => mesh_distribution fuel closed tab r s_end) (Ok x) -> n = length (all_points closed x) ->
  forall i, S (S i) < n -> graded (6 # 5) (size_of (all_points closed x) (S i)) (size_of (all_points closed x) i).
Proof.
  intros closed tab r s_end d x n Hr Hd Ht Hs Y Hn.
  destruct (whole_result (table_size tab) r s_end d d closed [0%Q] (pwl tab 0) Hr Hd) with (x := x) as (m & p & I & L & Hl & E).
  - intros s _. apply table_size_bounds. exact Ht.
  - apply inv_init. apply table_pwl_bounds. exact Ht.
  - exact Y.
  - rewrite E in *. rewrite (SQ_len s_end m Hl) in Hn. subst n. intros i Hi. unfold graded.
    assert (Old : forall j, S j <= length m - 7 -> (size_of (SQ s_end m) j == d)%Q).
    { intros j Hj. rewrite sq_size, !(SQ_old s_end m Hl) by lia. pose proof (M_size r s_end d d m p I Hl j ltac:(lia)). lra. }
    destruct (Nat.lt_ge_cases (S i) (length m - 7)) as [H1|H1]; [rewrite !Old by lia; lra|].
    rewrite (sq_tail s_end m Hl (S i)) by lia. pose proof (dsq_pos r s_end d d m p I Hl) as Pq.
    destruct (Nat.lt_ge_cases i (length m - 7)) as [H2|H2]; [|rewrite (sq_tail s_end m Hl i) by lia; lra].
    rewrite Old by lia. assert (H8 : 8 <= length m) by lia.
    pose proof (six_upper s_end m L Hl H8). pose proof (six_lower r s_end d d m p I Hl H8).
    pose proof (orig_size r s_end d d m p I Hl 1 H8 ltac:(lia)). pose proof (orig_size r s_end d d m p I Hl 2 H8 ltac:(lia)).
    pose proof (orig_size r s_end d d m p I Hl 3 H8 ltac:(lia)). pose proof (orig_size r s_end d d m p I Hl 4 H8 ltac:(lia)).
    pose proof (orig_size r s_end d d m p I Hl 5 H8 ltac:(lia)). pose proof (orig_size r s_end d d m p I Hl 6 H8 ltac:(lia)). lra.
Qed.

(** The full statement is false: with growing sizes the squash makes a jump beyond the limit
    of 6/5. *)
Definition growing : list (Q * Q) := [(0, 1); (1, 100)]%Q.
Definition growing_mesh : mesh_result :=
  match mesh_distribution 20 false growing (6 # 5) 20 with Some (Ok x) => x | _ => MkMesh [] 0 end.
Theorem C39_tail_refuted : exists tab s_end d D x i,
  (0 < d)%Q /\ size_table tab d D /\ yields (fun fuel => mesh_distribution fuel false tab (6 # 5) s_end) (Ok x) /\
  S (S i) < length (mr_s x) /\ ~ graded (6 # 5) (size_of (mr_s x) (S i)) (size_of (mr_s x) i).
Proof.
  exists growing, 20%Q, 1%Q, 100%Q, growing_mesh, 2. split; [reflexivity|]. split.
  - split; [discriminate|]. split; [reflexivity|]. split.
    + intros [|i] Hi; [reflexivity|cbn in Hi; lia].
    + intros [|[|i]] Hi; [| |cbn in Hi; lia]; cbn; split; discriminate.
  - split; [split|].
    + exists 20. vm_compute. reflexivity.
    + intros fuel y Hy. unfold mesh_distribution in Hy. destruct (mesh_loop fuel _ _ _ _ _) as [m|] eqn:E; [|discriminate].
      assert (E2 : exists m2, mesh_loop 20 (table_size growing) (6 # 5) 20 [0%Q] (pwl growing 0) = Some m2) by (eexists; vm_compute; reflexivity).
      destruct E2 as (m2 & E2). rewrite (loop_det _ _ _ _ _ _ _ _ _ E E2) in Hy. clear E m.
      injection Hy as <-. vm_compute in E2. injection E2 as <-. vm_compute. reflexivity.
    + split; [vm_compute; lia|]. intros [A B]. vm_compute in A. apply A. reflexivity.
Qed.

(** A closed track of 100 m with sizes from 2 to 5. *)
Definition sizes : list (Q * Q) := [(0, 2); (1, 5)]%Q.
Example C38_hypotheses_met : size_table sizes 2 5 /\ (1 <= 6 # 5)%Q /\ (5 * 5 < 100)%Q /\
  match mesh_distribution 60 true sizes (6 # 5) 100 with Some (Ok x) => (mr_length x == 100)%Q /\ 20 < length (mr_s x) | _ => False end.
Proof.
  split; [|split; [discriminate|split; [reflexivity|]]].
  - split; [discriminate|]. split; [reflexivity|]. split.
    + intros [|i] Hi; [reflexivity|cbn in Hi; lia].
    + intros [|[|i]] Hi; [| |cbn in Hi; lia]; cbn; split; discriminate.
  - vm_compute. split; [reflexivity|]. lia.
Qed.
Example C39_hypotheses_met : size_table [(0, 3)]%Q 3 3 /\
  match mesh_distribution 60 true [(0, 3)]%Q (6 # 5) 100 with Some (Ok x) => length (mr_s x) = 34 | _ => False end.
Proof.
  split; [|vm_compute; reflexivity]. split; [discriminate|]. split; [reflexivity|]. split.
  - intros i Hi. cbn in Hi. lia.
  - intros [|i] Hi; [|cbn in Hi; lia]. cbn. split; discriminate.
Qed.
Example C38_nonpositive_met : (pwl [(0, 0); (10, 5)]%Q 0 <= 0)%Q.
Proof. discriminate. Qed.

(** C69. The size of the last breakpoint passed applies, when the point and the breakpoints
    are on different segments of the boundary. Missing: the segment that contains the
    breakpoint. *)
Theorem C69_size_of_last_breakpoint_partial : forall proj p b0 v0 pre post v,
  (forall b, In b (map fst pre) -> fst (snd (proj b)) < fst (snd (proj p))) ->
  match post with [] => True | (b, _) :: _ => fst (snd (proj p)) < fst (snd (proj b)) end ->
  v = snd (last ((b0, v0) :: pre) (b0, v0)) ->
  compute_ds proj p ((b0, v0) :: pre ++ post) = Ok v.
Proof.
  intros proj p b0 v0 pre post v Hpre Hpost ->. unfold compute_ds. f_equal. revert b0 v0 Hpre.
  induction pre as [|[b w] pre IH]; intros b0 v0 Hpre.
  - cbn [app last snd]. destruct post as [|[b w] post]; [reflexivity|]. cbn [search_break]. unfold who_is_ahead.
    assert (E : (fst (snd (proj b)) =? fst (snd (proj p))) = false) by (apply Nat.eqb_neq; lia). rewrite E. cbn [andb].
    assert (E2 : (fst (snd (proj b)) <? fst (snd (proj p))) = false) by (apply Nat.ltb_ge; lia). rewrite E2. reflexivity.
  - cbn [app search_break]. unfold who_is_ahead. pose proof (Hpre b (or_introl eq_refl)) as Hb.
    assert (E : (fst (snd (proj b)) =? fst (snd (proj p))) = false) by (apply Nat.eqb_neq; lia). rewrite E. cbn [andb].
    apply Nat.ltb_lt in Hb. rewrite Hb. cbn [Nat.eqb]. rewrite (IH b w) by (intros b' Hb'; apply Hpre; right; exact Hb').
    destruct pre as [|a pre]; [reflexivity|].
    assert (G : forall (l : list (point * Q)) x y, l <> [] -> last l x = last l y).
    { clear. induction l as [|c l IH]; intros x y Hne; [congruence|]. destruct l; [reflexivity|]. apply (IH x y). discriminate. }
    change (last ((b, w) :: a :: pre) (b, w)) with (last (a :: pre) (b, w)). change (last ((b0, v0) :: (b, w) :: a :: pre) (b0, v0)) with (last (a :: pre) (b0, v0)).
    f_equal. apply G. discriminate.
Qed.

(** On one segment the comparison is always won by the point: the projection of the
    breakpoint is at least as near to the breakpoint as any other point of the curve, so a
    breakpoint ahead of the point is never seen as such. *)
Theorem C69_same_segment_refuted : forall i j p1 p2 p_ref,
  i <> j -> (dist2 p1 p_ref <= dist2 p2 p_ref)%Q -> who_is_ahead (i, j) (i, j) p1 p2 p_ref = 2.
Proof.
  intros i j p1 p2 p_ref Hij Hd. unfold who_is_ahead. cbn [fst snd]. rewrite !Nat.eqb_refl. cbn [andb].
  apply Nat.eqb_neq in Hij. rewrite Hij. assert (E : Qlt_bool (dist2 p2 p_ref) (dist2 p1 p_ref) = false) by (apply Qlt_bool_false; exact Hd).
  rewrite E. reflexivity.
Qed.

(** A straight boundary with nodes 10 apart: projection is the identity on it. *)
Definition straight_proj (p : point) : point * (nat * nat) :=
  let i := Z.to_nat (Qnum (fst (fst p)) / (10 * Zpos (Qden (fst (fst p))))) in (p, (i, S i)).
Definition on_line (x : Q) : point := (x, 0, 0)%Q.
Theorem C69_breakpoint_ahead_refuted : exists bs x, 
  bs = [(on_line 0, 1); (on_line 17, 2)]%Q /\ (x < 17)%Q /\ compute_ds straight_proj (on_line x) bs = Ok 2%Q.
Proof. eexists _, 13%Q. split; [reflexivity|]. split; [reflexivity|]. vm_compute. reflexivity. Qed.
Example C69_hypotheses_met : compute_ds straight_proj (on_line 33) [(on_line 0, 1); (on_line 17, 2); (on_line 45, 3)]%Q = Ok 2%Q /\
  compute_ds straight_proj (on_line 5) [(on_line 0, 1); (on_line 17, 2); (on_line 45, 3)]%Q = Ok 1%Q.
Proof. split; vm_compute; reflexivity. Qed.

Print Assumptions C38_distribution_mesh_partial.
Print Assumptions C38_breakpoints_mesh_partial.
Print Assumptions C38_equispaced_mesh.
Print Assumptions C38_generation_ends.
Print Assumptions C38_short_track_refuted.
Print Assumptions C38_short_track_breakpoints_refuted.
Print Assumptions C38_nonpositive_first_size_never_ends.
Print Assumptions C39_grading_partial.
Print Assumptions C39_constant_size.
Print Assumptions C39_tail_refuted.
Print Assumptions C69_size_of_last_breakpoint_partial.
Print Assumptions C69_same_segment_refuted.
Print Assumptions C69_breakpoint_ahead_refuted.
