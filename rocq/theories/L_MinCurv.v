(** Lemmas about the minimum curvature path. *)
From Coq Require Import Reals Lra Lia Bool Arith.
From Coq Require Import List.
From Verif Require Import M_Controls M_Laptime M_Vec M_Road M_Preproc S_Preproc L_Preproc M_MinCurv S_MinCurv.
Import ListNotations.
Local Open Scope R_scope.

Definition mk_point (x : list R) (i : nat) (g : geometry) : path_point :=
  let v k := nth (8 * i + k) x 0 in
  let nv := normal (ge_e g) in
  PathPoint (v 0%nat) (Euler (v 1%nat) (v 2%nat) (v 3%nat)) (Euler (v 4%nat) (v 5%nat) (v 6%nat))
    (V (vx (ge_r g) + v 0%nat * vx nv) (vy (ge_r g) + v 0%nat * vy nv) (vz (ge_r g) + v 0%nat * vz nv))
    (V (v 6%nat - sin (v 2%nat) * v 4%nat)
       (cos (v 3%nat) * v 5%nat + cos (v 2%nat) * sin (v 3%nat) * v 4%nat)
       (- sin (v 3%nat) * v 5%nat + cos (v 2%nat) * cos (v 3%nat) * v 4%nat)).

Lemma mc_point_ok x i g : (8 * i + 7 <= length x)%nat -> mc_point x i g = Ok (mk_point x i g).
Proof.
  intro H. unfold mc_point, in_end, in_n, in_yaw, in_pitch, in_roll, in_yaw_dot, in_pitch_dot, in_roll_dot.
  rewrite (rd_some _ x (8 * i + 0) (nth (8 * i + 0) x 0)) by (apply nth_error_nth'; lia). cbn [bind].
  rewrite (rd_some _ x (8 * i + 1) (nth (8 * i + 1) x 0)) by (apply nth_error_nth'; lia). cbn [bind].
  rewrite (rd_some _ x (8 * i + 2) (nth (8 * i + 2) x 0)) by (apply nth_error_nth'; lia). cbn [bind].
  rewrite (rd_some _ x (8 * i + 3) (nth (8 * i + 3) x 0)) by (apply nth_error_nth'; lia). cbn [bind].
  rewrite (rd_some _ x (8 * i + 4) (nth (8 * i + 4) x 0)) by (apply nth_error_nth'; lia). cbn [bind].
  rewrite (rd_some _ x (8 * i + 5) (nth (8 * i + 5) x 0)) by (apply nth_error_nth'; lia). cbn [bind].
  rewrite (rd_some _ x (8 * i + 6) (nth (8 * i + 6) x 0)) by (apply nth_error_nth'; lia). cbn [bind].
  reflexivity.
Qed.

Definition mk_points (x : list R) (i : nat) (gs : list geometry) : list path_point :=
  map (fun ig => mk_point x (fst ig) (snd ig)) (combine (seq i (length gs)) gs).

Lemma mc_points_ok x gs : forall i, (8 * (i + length gs) <= length x + 1)%nat -> mc_points x i gs = Ok (mk_points x i gs).
Proof.
  induction gs as [|g gs IH]; intros i H; [reflexivity|]. cbn [mc_points]. simpl length in H.
  rewrite mc_point_ok by lia. cbn [bind]. rewrite IH by lia. reflexivity.
Qed.

Lemma mk_points_length x i gs : length (mk_points x i gs) = length gs.
Proof. unfold mk_points. rewrite map_length, combine_length, seq_length. lia. Qed.

Lemma mk_points_nth x gs : forall i0 i p, nth_error (mk_points x i0 gs) i = Some p ->
  exists g, nth_error gs i = Some g /\ p = mk_point x (i0 + i) g.
Proof.
  induction gs as [|g gs IH]; intros i0 [|i] p H; try discriminate.
  - simpl in H. injection H as <-. exists g. rewrite Nat.add_0_r. auto.
  - destruct (IH (S i0) i p H) as (g' & Hg & ->). exists g'. split; [exact Hg|]. f_equal. lia.
Qed.

Definition mk_deltas (x : list R) (n : nat) : list R := map (fun i => nth (8 * i + 7) x 0) (seq 0 n).
Lemma mc_deltas_ok x n : (8 * n <= length x)%nat -> mc_deltas x n = Ok (mk_deltas x n).
Proof.
  intro H. unfold mc_deltas. apply all_ok_map. intros i Hi. apply in_seq in Hi. apply rd_some.
  unfold in_end, in_delta. apply nth_error_nth'. lia.
Qed.
Lemma mk_deltas_length x n : length (mk_deltas x n) = n.
Proof. unfold mk_deltas. now rewrite map_length, seq_length. Qed.
Lemma mk_deltas_nth x n i d : nth_error (mk_deltas x n) i = Some d -> (i < n)%nat /\ d = nth (8 * i + 7) x 0.
Proof.
  intro H. assert (Hi : (i < n)%nat).
  { rewrite <- (mk_deltas_length x n). apply nth_error_Some. congruence. }
  split; [exact Hi|]. unfold mk_deltas in H. rewrite nth_error_map, (nth_error_nth' _ 0%nat) in H by (rewrite seq_length; lia).
  rewrite seq_nth in H by lia. cbn [option_map] in H. injection H as <-. reflexivity.
Qed.

Lemma back_last A (l : list A) a : nth_error l (length l - 1) = Some a -> back l = Ok a.
Proof. intro H. unfold back. destruct l; [discriminate|]. now apply rd_some. Qed.

Lemma mc_sizes closed (gs : list geometry) (x : list R) : length x = mc_variables closed (length gs) -> (1 <= length gs)%nat ->
  (8 * length gs <= length x + 1)%nat /\ (8 * mc_elements closed (length gs) <= length x)%nat.
Proof. unfold mc_variables, mc_elements, in_end. intros H HN. destruct closed; lia. Qed.

Lemma mc_export_eq closed gs x : length x = mc_variables closed (length gs) -> (1 <= length gs)%nat ->
  mc_export closed gs x = Ok (Path (mk_deltas x (mc_elements closed (length gs))) (mk_points x 0 gs)).
Proof.
  intros H HN. destruct (mc_sizes closed gs x H HN). unfold mc_export.
  rewrite mc_points_ok by (simpl; lia). cbn [bind]. rewrite mc_deltas_ok by assumption. reflexivity.
Qed.

Lemma mc_fg_eq closed gs dir x d p q : length x = mc_variables closed (length gs) -> (1 <= length gs)%nat ->
  let ds := mk_deltas x (mc_elements closed (length gs)) in let ps := mk_points x 0 gs in
  (closed = true -> nth_error ds (length ds - 1) = Some d) ->
  (closed = true -> nth_error ps (length ps - 1) = Some p) -> (closed = true -> nth_error ps 0 = Some q) ->
  mc_fg closed gs dir x = Ok (fst (mc_inner ds ps) + (if closed then mc_closing_cost d p q else 0),
                              snd (mc_inner ds ps) ++ (if closed then mc_defects d (2 * PI * dir) p q else [])).
Proof.
  intros H HN ds ps Hd Hp Hq. destruct (mc_sizes closed gs x H HN). unfold mc_fg.
  rewrite mc_points_ok by (simpl; lia). cbn [bind]. rewrite mc_deltas_ok by assumption. cbn [bind]. fold ds ps.
  destruct closed.
  - rewrite (back_last _ _ _ (Hd eq_refl)). cbn [bind]. rewrite (back_last _ _ _ (Hp eq_refl)). cbn [bind].
    unfold front. rewrite (rd_some _ _ _ _ (Hq eq_refl)). reflexivity.
  - rewrite Rplus_0_r, app_nil_r. now destruct (mc_inner ds ps).
Qed.

Lemma mc_inner_length ds : forall ps, length (snd (mc_inner ds ps)) = (6 * Nat.min (length ds) (length ps - 1))%nat.
Proof.
  induction ds as [|d ds IH]; intros [|p ps]; try reflexivity.
  destruct ps as [|q ps]; [reflexivity|]. cbn [mc_inner]. cbn [snd]. rewrite app_length, IH. simpl. lia.
Qed.

Lemma mc_inner_defects ds : forall ps i d p q, nth_error ds i = Some d -> nth_error ps i = Some p -> nth_error ps (S i) = Some q ->
  incl (mc_defects d 0 p q) (snd (mc_inner ds ps)).
Proof.
  induction ds as [|d0 ds IH]; intros ps i d p q Hd Hp Hq; [destruct i; discriminate|].
  destruct ps as [|p0 ps]; [destruct i; discriminate|]. destruct ps as [|q0 ps]; [destruct i; simpl in Hq; [discriminate|destruct i; discriminate]|].
  cbn [mc_inner snd]. destruct i as [|i].
  - simpl in Hd, Hp, Hq. injection Hd as <-. injection Hp as <-. injection Hq as <-. apply incl_appl, incl_refl.
  - apply incl_appr. exact (IH (q0 :: ps) i d p q Hd Hp Hq).
Qed.

Lemma nth_error_flat_map' A B (f : A -> list B) k : forall l i j a, nth_error l i = Some a -> (j < length (f a))%nat ->
  (forall i' b, (i' < i)%nat -> nth_error l i' = Some b -> length (f b) = k) ->
  nth_error (flat_map f l) (k * i + j) = nth_error (f a) j.
Proof.
  induction l as [|b l IH]; intros i j a Ha Hj Hk; [destruct i; discriminate|].
  cbn [flat_map]. destruct i as [|i]; simpl in Ha.
  - injection Ha as ->. rewrite Nat.mul_0_r. now apply nth_error_app1.
  - assert (Hb : length (f b) = k) by (apply (Hk 0%nat b); [lia|reflexivity]).
    rewrite nth_error_app2 by (rewrite Hb; nia). rewrite Hb. replace (k * S i + j - k)%nat with (k * i + j)%nat by nia.
    apply IH; [exact Ha|exact Hj|]. intros i' c Hi Hc. apply (Hk (S i') c); [lia|exact Hc].
Qed.

Lemma combine_seq_nth A (l : list A) : forall k i a, nth_error l i = Some a -> nth_error (combine (seq k (length l)) l) i = Some ((k + i)%nat, a).
Proof.
  induction l as [|b l IH]; intros k [|i] a H; try discriminate; simpl in *.
  - injection H as ->. now rewrite Nat.add_0_r.
  - rewrite (IH (S k) i a H). f_equal. f_equal. lia.
Qed.
Lemma combine_seq_nth_inv A (l : list A) k i b : nth_error (combine (seq k (length l)) l) i = Some b ->
  fst b = (k + i)%nat /\ nth_error l i = Some (snd b).
Proof.
  intro H. destruct (nth_error l i) as [a|] eqn:E.
  - rewrite (combine_seq_nth _ _ k i a E) in H. injection H as <-. auto.
  - apply nth_error_None in E. assert (i < length (combine (seq k (length l)) l))%nat by (apply nth_error_Some; congruence).
    rewrite combine_length, seq_length in *. lia.
Qed.

Section Vec.
  Context (pt : geometry -> list R) (el : R -> R) (closed : bool) (L : R) (s : list R) (gs : list geometry)
          (Hpt : forall g, length (pt g) = 7%nat) (HN : (1 <= length gs)%nat).

  Definition chunk (ig : nat * geometry) : list R :=
    pt (snd ig) ++ (if (fst ig <? mc_elements closed (length gs))%nat then [el (mc_ds L s (fst ig))] else []).
  Lemma chunk_length i g : length (chunk (i, g)) = (7 + if (i <? mc_elements closed (length gs))%nat then 1 else 0)%nat.
  Proof. unfold chunk. cbn [fst snd]. rewrite app_length, Hpt. now destruct (_ <? _)%nat. Qed.

  Lemma vec_nth_chunk i g j : nth_error gs i = Some g -> (j < length (chunk (i, g)))%nat ->
    nth_error (mc_vector pt el closed L s gs) (8 * i + j) = nth_error (chunk (i, g)) j.
  Proof.
    intros Hg Hj. unfold mc_vector. fold chunk. change (fun ig => pt (snd ig) ++ _) with chunk.
    rewrite (nth_error_flat_map' _ _ chunk 8 _ i j (i, g)); [reflexivity|exact (combine_seq_nth _ gs 0 i g Hg)|exact Hj|].
    intros i' [k b] Hi Hb. apply combine_seq_nth_inv in Hb. destruct Hb as [E Hb]. cbn [fst snd] in *. subst k.
    rewrite chunk_length. assert (i < length gs)%nat by (apply nth_error_Some; congruence).
    assert (Hlt : (0 + i' <? mc_elements closed (length gs))%nat = true) by (apply Nat.ltb_lt; unfold mc_elements; destruct closed; lia).
    rewrite Hlt. reflexivity.
  Qed.

  Lemma vec_nth_point i g k : nth_error gs i = Some g -> (k < 7)%nat ->
    nth_error (mc_vector pt el closed L s gs) (8 * i + k) = nth_error (pt g) k.
  Proof.
    intros Hg Hk. rewrite (vec_nth_chunk i g k Hg); [|rewrite chunk_length; destruct (_ <? _)%nat; lia].
    unfold chunk. apply nth_error_app1. now rewrite Hpt.
  Qed.

  Lemma vec_nth_delta i : (i < mc_elements closed (length gs))%nat ->
    nth_error (mc_vector pt el closed L s gs) (8 * i + 7) = Some (el (mc_ds L s i)).
  Proof.
    intro Hi. assert (Hi' : (i < length gs)%nat) by (unfold mc_elements in Hi; destruct closed; lia).
    destruct (nth_error_ex _ gs i Hi') as (g & Hg).
    assert (Hlt : (i <? mc_elements closed (length gs))%nat = true) by now apply Nat.ltb_lt.
    rewrite (vec_nth_chunk i g 7 Hg); [|rewrite chunk_length, Hlt; lia].
    unfold chunk. cbn [fst snd]. rewrite Hlt, nth_error_app2 by (rewrite Hpt; lia). rewrite Hpt. reflexivity.
  Qed.

  Lemma vec_length : length (mc_vector pt el closed L s gs) = mc_variables closed (length gs).
  Proof.
    unfold mc_vector. change (fun ig => pt (snd ig) ++ _) with chunk.
    assert (G : forall gs' k m, length (flat_map (fun ig => pt (snd ig) ++ (if (fst ig <? m)%nat then [el (mc_ds L s (fst ig))] else []))
                  (combine (seq k (length gs')) gs')) = (7 * length gs' + (Nat.min m (k + length gs') - Nat.min m k))%nat).
    { induction gs' as [|g gs' IH]; intros k m; simpl; [lia|]. rewrite !app_length, IH, Hpt.
      destruct (Nat.ltb_spec k m); simpl; lia. }
    unfold chunk. rewrite G. unfold mc_variables, mc_elements, in_end. destruct closed; lia.
  Qed.
End Vec.
