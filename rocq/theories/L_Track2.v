(** Lemmas on the track built from a circuit. *)
From Coq Require Import String QArith Qround ZArith Bool Arith Lia Lqa List.
From Verif Require Import M_Controls M_Kerb M_Mesh M_Track S_Track L_Controls L_Colloc3 L_Mesh L_Track.
Import ListNotations.
Local Open Scope Q_scope.

Definition tab_increasing (tab : list (Q * Q)) : Prop :=
  forall i, (S i < length tab)%nat -> fst (nth i tab (0, 0)) < fst (nth (S i) tab (0, 0)).

Lemma pwl_cons2 s0 v0 s1 v1 tab x : pwl ((s0, v0) :: (s1, v1) :: tab) x =
  if Qlt_bool x s0 then v0 else if Qlt_bool x s1 then v0 + (x - s0) / (s1 - s0) * (v1 - v0) else pwl ((s1, v1) :: tab) x.
Proof. reflexivity. Qed.

Lemma tab_increasing_tail p tab : tab_increasing (p :: tab) -> tab_increasing tab.
Proof. intros H i Hi. apply (H (S i)). cbn. lia. Qed.

Lemma pwl_first tab x : tab_increasing tab -> tab <> [] -> x == fst (nth 0 tab (0, 0)) -> pwl tab x == snd (nth 0 tab (0, 0)).
Proof.
  intros Hi Hne E. destruct tab as [|[s0 v0] [|[s1 v1] tab]]; [congruence|reflexivity|]. rewrite pwl_cons2. cbn in E |- *.
  pose proof (Hi 0%nat ltac:(cbn; lia)) as I. cbn in I.
  destruct (Qlt_bool x s0) eqn:A; [reflexivity|]. destruct (Qlt_bool x s1) eqn:B.
  - rewrite E. field. lra.
  - apply Qlt_bool_false in B. lra.
Qed.

Lemma pwl_between tab : tab_increasing tab -> forall i x, (S i < length tab)%nat ->
  fst (nth i tab (0, 0)) <= x <= fst (nth (S i) tab (0, 0)) ->
  pwl tab x == snd (nth i tab (0, 0)) + (x - fst (nth i tab (0, 0))) / (fst (nth (S i) tab (0, 0)) - fst (nth i tab (0, 0))) * (snd (nth (S i) tab (0, 0)) - snd (nth i tab (0, 0))).
Proof.
  induction tab as [|[s0 v0] tab IH]; intros Hi i x Hl [Ha Hb]; [cbn in Hl; lia|].
  destruct tab as [|[s1 v1] tab]; [cbn in Hl; lia|]. rewrite pwl_cons2.
  pose proof (Hi 0%nat ltac:(cbn; lia)) as I0. cbn in I0.
  destruct i as [|i].
  - cbn [nth fst snd] in Ha, Hb |- *. destruct (Qlt_bool x s0) eqn:A; [apply Qlt_bool_iff in A; lra|].
    destruct (Qlt_bool x s1) eqn:B; [reflexivity|]. apply Qlt_bool_false in B. assert (E : x == s1) by lra.
    rewrite (pwl_first ((s1, v1) :: tab) x (tab_increasing_tail _ _ Hi) ltac:(discriminate) E). cbn [nth snd]. rewrite E. field. lra.
  - cbn [nth] in Ha, Hb |- *. change (match i with O => (s1, v1) | S m => nth m tab (0, 0) end) with (nth i ((s1, v1) :: tab) (0, 0)) in *.
    assert (HL : (S i < length ((s1, v1) :: tab))%nat) by (cbn in *; lia).
    assert (HM : s1 <= fst (nth i ((s1, v1) :: tab) (0, 0))).
    { clear Ha Hb. assert (G : forall k, (k < length ((s1, v1) :: tab))%nat -> s1 <= fst (nth k ((s1, v1) :: tab) (0, 0))).
      { induction k as [|k IHk]; intros Hk; [cbn; lra|]. specialize (IHk ltac:(lia)). pose proof (tab_increasing_tail _ _ Hi k Hk) as J. lra. }
      apply G. lia. }
    destruct (Qlt_bool x s0) eqn:A; [apply Qlt_bool_iff in A; lra|]. destruct (Qlt_bool x s1) eqn:B; [apply Qlt_bool_iff in B; lra|].
    apply (IH (tab_increasing_tail _ _ Hi) i x HL). split; assumption.
Qed.

Lemma pwl_node tab : tab_increasing tab -> forall i, (i < length tab)%nat -> pwl tab (fst (nth i tab (0, 0))) == snd (nth i tab (0, 0)).
Proof.
  intros Hi i Hl. destruct i as [|i].
  - apply pwl_first; [exact Hi|intros ->; cbn in Hl; lia|reflexivity].
  - pose proof (Hi i Hl) as J. rewrite (pwl_between tab Hi i); [|exact Hl|split; lra]. field. lra.
Qed.

(** Tables of a circuit: the vector, closed by its first value. *)
Section Tables.
Context (b : bool) (s : list Q) (L : Q).
Definition arcs : list Q := if b then s ++ [L] else s.
Definition closedv {A} (d : A) (v : list A) : list A := if b then v ++ [hd d v] else v.
Context (n : nat) (Hn : (1 <= n)%nat) (Hs : length s = n).
Context (Hinc : forall i, (S i < n)%nat -> nth i s 0 < nth (S i) s 0) (Hend : b = true -> nth (n - 1) s 0 < L).

Lemma closedv_length {A} (d : A) v : length v = n -> length (closedv d v) = length arcs.
Proof. clear Hend Hinc. intros H. unfold closedv, arcs. destruct b; rewrite ?app_length; cbn; lia. Qed.

Lemma table_ok v : length v = n -> table arcs (closedv 0 v) = Ok (combine arcs (closedv 0 v)).
Proof. intros H. unfold table. rewrite (closedv_length 0 v H), Nat.eqb_refl. reflexivity. Qed.

Lemma arcs_increasing v : length v = n -> tab_increasing (combine arcs (closedv 0 v)).
Proof.
  intros H i. rewrite combine_length, (closedv_length 0 v H), Nat.min_id. intros Hi.
  rewrite !combine_nth by (symmetry; now apply closedv_length). cbn [fst]. unfold arcs in *.
  destruct b.
  - rewrite app_length in Hi. cbn in Hi. destruct (Nat.eq_dec (S i) n) as [E|NE].
    + rewrite app_nth1, app_nth2 by lia. replace (S i - length s)%nat with 0%nat by lia. cbn. replace i with (n - 1)%nat by lia. now apply Hend.
    + rewrite !app_nth1 by lia. apply Hinc. lia.
  - apply Hinc. lia.
Qed.

Lemma tab_nth v i : length v = n -> (i < n)%nat -> nth i (combine arcs (closedv 0 v)) (0, 0) = (nth i s 0, nth i v 0).
Proof.
  clear Hend Hinc. intros H Hi. rewrite combine_nth by (symmetry; now apply closedv_length). unfold arcs, closedv.
  destruct b; [rewrite !app_nth1 by lia|]; reflexivity.
Qed.
Lemma tab_length v : length v = n -> length (combine arcs (closedv 0 v)) = if b then S n else n.
Proof. clear Hend Hinc. intros H. rewrite combine_length, (closedv_length 0 v H), Nat.min_id. unfold arcs. destruct b; rewrite ?app_length; cbn; lia. Qed.
Lemma tab_end v : b = true -> length v = n -> nth n (combine arcs (closedv 0 v)) (0, 0) = (L, hd 0 v).
Proof.
  clear Hend Hinc. intros Hb H. rewrite combine_nth by (symmetry; now apply closedv_length). unfold arcs, closedv.
  rewrite Hb, !app_nth2 by lia. rewrite Hs, H, Nat.sub_diag. reflexivity.
Qed.

Lemma eval_node v i : length v = n -> (i < n)%nat -> pwl (combine arcs (closedv 0 v)) (nth i s 0) == nth i v 0.
Proof.
  intros H Hi. pose proof (pwl_node _ (arcs_increasing v H) i) as P. rewrite (tab_length v H), (tab_nth v i H Hi) in P. apply P. destruct b; lia.
Qed.
Lemma eval_end v : b = true -> length v = n -> pwl (combine arcs (closedv 0 v)) L == hd 0 v.
Proof.
  intros Hb H. pose proof (pwl_node _ (arcs_increasing v H) n) as P. rewrite (tab_length v H), (tab_end v Hb H) in P. apply P. rewrite Hb. lia.
Qed.
Lemma eval_between v i x : length v = n -> (S i < n)%nat -> nth i s 0 <= x <= nth (S i) s 0 ->
  pwl (combine arcs (closedv 0 v)) x == nth i v 0 + (x - nth i s 0) / (nth (S i) s 0 - nth i s 0) * (nth (S i) v 0 - nth i v 0).
Proof.
  intros H Hi Hx. pose proof (pwl_between _ (arcs_increasing v H) i x) as P.
  rewrite (tab_length v H), (tab_nth v i H), (tab_nth v (S i) H) in P by lia. apply P; [destruct b; lia|exact Hx].
Qed.
Lemma eval_last v x : b = true -> length v = n -> nth (n - 1) s 0 <= x <= L ->
  pwl (combine arcs (closedv 0 v)) x == nth (n - 1) v 0 + (x - nth (n - 1) s 0) / (L - nth (n - 1) s 0) * (hd 0 v - nth (n - 1) v 0).
Proof.
  intros Hb H Hx. pose proof (pwl_between _ (arcs_increasing v H) (n - 1) x) as P.
  replace (S (n - 1)) with n in P by lia.
  rewrite (tab_length v H), (tab_nth v (n - 1) H), (tab_end v Hb H) in P by lia. apply P; [rewrite Hb; lia|exact Hx].
Qed.

Lemma close_vector_ok {A} (d : A) v : length v = n -> close_vector b v = Ok (closedv d v).
Proof.
  clear Hend Hinc. intros H. unfold close_vector, closedv, push_front. destruct b; [|reflexivity]. destruct v as [|a v]; [cbn in H; lia|]. reflexivity.
Qed.
End Tables.

Definition widened (ks : list kerb) (s w : list Q) : list Q := map (fun p => snd p + kerb_widening ks (fst p)) (combine s w).
Lemma widen_ok ks s w : length s = length w -> widen ks s w = Ok (widened ks s w).
Proof.
  intros H. unfold widen. rewrite H, read_all. cbn [bind]. rewrite skipn_all, app_nil_r. reflexivity.
Qed.
Lemma widened_length ks s w : length s = length w -> length (widened ks s w) = length s.
Proof. intros H. unfold widened. rewrite map_length, combine_length. lia. Qed.
Lemma widened_nth ks s w i : length s = length w -> (i < length s)%nat -> nth i (widened ks s w) 0 = nth i w 0 + kerb_widening ks (nth i s 0).
Proof.
  intros H Hi. unfold widened. set (f := fun p : Q * Q => snd p + kerb_widening ks (fst p)).
  rewrite (nth_indep _ 0 (f (0, 0))) by (rewrite map_length, combine_length; lia).
  rewrite (map_nth f), combine_nth by exact H. reflexivity.
Qed.

(** The track of a well formed circuit. *)
Definition track_of (c : circuit) : track :=
  let b := ci_closed c in
  let s := arcs b (ci_s c) (ci_length c) in
  let t v := combine s (closedv b 0 v) in
  let t3 v := if ci_elevation c then t v else [] in
  MkTrack (t (map px (ci_center c))) (t (map py (ci_center c))) (t (map pz (ci_center c)))
          (t (ci_yaw c)) (t3 (ci_pitch c)) (t3 (ci_roll c)) (t (ci_dyaw c)) (t3 (ci_d2pitch c)) (t3 (ci_d2roll c))
          (t (widened (ci_left_kerb c) (ci_s c) (ci_nl c))) (t (widened (ci_right_kerb c) (ci_s c) (ci_nr c))).

(** What the track needs of a circuit: the vectors it uses have one entry per point. *)
Definition usable (c : circuit) : Prop :=
  let n := ci_n c in
  (1 <= n)%nat /\ length (ci_s c) = n /\ length (ci_center c) = n /\ length (ci_yaw c) = n /\ length (ci_dyaw c) = n /\
  length (ci_nl c) = n /\ length (ci_nr c) = n /\
  (ci_elevation c = true -> length (ci_pitch c) = n /\ length (ci_roll c) = n /\ length (ci_d2pitch c) = n /\ length (ci_d2roll c) = n).

Lemma map_closedv {A B} (f : A -> B) b d v : map f (closedv b d v) = closedv b (f d) (map f v).
Proof. unfold closedv. destruct b; [rewrite map_app|reflexivity]. destruct v; reflexivity. Qed.

Lemma make_track_ok c : usable c -> make_track c = Ok (track_of c).
Proof.
  intros (Hn & L1 & L2 & L3 & L4 & L5 & L6 & LE). unfold make_track, track_of.
  rewrite !widen_ok by congruence. cbn [bind]. cbv zeta.
  assert (W1 : length (widened (ci_left_kerb c) (ci_s c) (ci_nl c)) = ci_n c) by (rewrite widened_length; congruence).
  assert (W2 : length (widened (ci_right_kerb c) (ci_s c) (ci_nr c)) = ci_n c) by (rewrite widened_length; congruence).
  assert (C3 : forall v : list Q, (ci_elevation c = true -> length v = ci_n c) ->
     close_vector (ci_closed c && ci_elevation c) v = Ok (if ci_elevation c then closedv (ci_closed c) 0 v else v)).
  { intros v Hv. destruct (ci_elevation c); [|rewrite andb_false_r; reflexivity]. rewrite andb_true_r. apply (close_vector_ok (ci_closed c) (ci_s c) (ci_n c)); auto. }
  rewrite (close_vector_ok (A := point) (ci_closed c) (ci_s c) (ci_n c) Hn L1 (0, 0, 0) (ci_center c) L2). cbn [bind].
  rewrite (close_vector_ok (ci_closed c) (ci_s c) (ci_n c) Hn L1 0 (ci_yaw c) L3). cbn [bind].
  rewrite (close_vector_ok (ci_closed c) (ci_s c) (ci_n c) Hn L1 0 (ci_dyaw c) L4). cbn [bind].
  rewrite (close_vector_ok (ci_closed c) (ci_s c) (ci_n c) Hn L1 0 _ W1). cbn [bind].
  rewrite (close_vector_ok (ci_closed c) (ci_s c) (ci_n c) Hn L1 0 _ W2). cbn [bind].
  rewrite !C3 by (intros E; now apply LE). cbn [bind].
  rewrite !map_closedv. fold (arcs (ci_closed c) (ci_s c) (ci_length c)).
  change (px (0, 0, 0)) with 0. change (py (0, 0, 0)) with 0. change (pz (0, 0, 0)) with 0.
  rewrite !(table_ok (ci_closed c) (ci_s c) (ci_length c) (ci_n c) Hn L1) by (rewrite ?map_length; assumption). cbn [bind].
  destruct (ci_elevation c).
  - destruct (LE eq_refl) as (E1 & E2 & E3 & E4).
    rewrite !(table_ok (ci_closed c) (ci_s c) (ci_length c) (ci_n c) Hn L1) by assumption. reflexivity.
  - reflexivity.
Qed.

(** Rounding. *)
Lemma round6_exact x : six_decimals x -> round6 x == x.
Proof.
  intros [z Hz]. unfold round6. set (y := x * inject_Z (10 ^ 6)).
  assert (Hy : y == inject_Z z). { unfold y. rewrite Hz. field. discriminate. }
  assert (Hf : Qfloor y = z). { rewrite Hy. apply Qfloor_Z. }
  rewrite Hf. destruct (Qlt_bool (y - inject_Z z) (1 # 2)) eqn:E.
  - now rewrite Hz.
  - apply Qlt_bool_false in E. rewrite Hy in E. lra.
Qed.
Lemma Qlt_bool_ext a b a' b' : a == a' -> b == b' -> Qlt_bool a b = Qlt_bool a' b'.
Proof.
  intros E F. destruct (Qlt_bool a b) eqn:A, (Qlt_bool a' b') eqn:B; try reflexivity;
    rewrite ?Qlt_bool_iff in *; try apply Qlt_bool_false in A; try apply Qlt_bool_false in B; lra.
Qed.
Lemma widening_rounded ks s : (forall k, In k ks -> six_decimals_kerb k) -> kerb_widening (map write_kerb ks) s == kerb_widening ks s.
Proof.
  induction ks as [|k ks IH]; intros H; [reflexivity|]. cbn [map kerb_widening].
  destruct (H k (or_introl eq_refl)) as (A & B & C). unfold write_kerb at 1 2 3 4. cbn [k_start k_finish k_width k_used].
  rewrite (Qlt_bool_ext (round6 (k_start k) - eps12) s (k_start k - eps12) s) by (rewrite ?(round6_exact _ A); reflexivity).
  rewrite (Qlt_bool_ext s (round6 (k_finish k) + eps12) s (k_finish k + eps12)) by (rewrite ?(round6_exact _ B); reflexivity).
  destruct (_ && _)%bool; [now apply round6_exact|]. apply IH. intros k' Hk'. apply H. now right.
Qed.
Lemma evaluate_rounded d ks s : (forall k, In k ks -> six_decimals_kerb k) -> kerb_evaluate d (map write_kerb ks) s == kerb_evaluate d ks s.
Proof.
  induction ks as [|k ks IH]; intros H; [reflexivity|]. cbn [map kerb_evaluate].
  destruct (H k (or_introl eq_refl)) as (A & B & C). unfold write_kerb at 1 2 3 4. cbn [k_start k_finish k_width k_used].
  rewrite (Qlt_bool_ext (round6 (k_start k) - eps8) s (k_start k - eps8) s) by (rewrite ?(round6_exact _ A); reflexivity).
  rewrite (Qlt_bool_ext s (round6 (k_finish k) + eps8) s (k_finish k + eps8)) by (rewrite ?(round6_exact _ B); reflexivity).
  destruct (_ && _)%bool; [destruct (_ || _)%bool; [now apply round6_exact|reflexivity]|]. apply IH. intros k' Hk'. apply H. now right.
Qed.
Lemma round6_close x : - (1 # 2000000) <= round6 x - x <= 1 # 2000000.
Proof.
  unfold round6. set (y := x * inject_Z (10 ^ 6)).
  pose proof (Qfloor_le y) as F1. pose proof (Qlt_floor y) as F2. rewrite inject_Z_plus in F2. change (inject_Z 1) with 1 in F2.
  assert (X : x == y / inject_Z (10 ^ 6)) by (unfold y; field; discriminate).
  assert (G : forall z, - (1 # 2) <= inject_Z z - y <= 1 # 2 -> - (1 # 2000000) <= inject_Z z / inject_Z (10 ^ 6) - x <= 1 # 2000000).
  { intros z Hz. rewrite X. change (inject_Z (10 ^ 6)) with (1000000 # 1).
    setoid_replace (inject_Z z / (1000000 # 1) - y / (1000000 # 1)) with ((inject_Z z - y) * (1 # 1000000)) by field. lra. }
  assert (P1 : inject_Z (Qfloor y + 1) == inject_Z (Qfloor y) + 1) by (rewrite inject_Z_plus; reflexivity).
  apply G. destruct (Qlt_bool (y - inject_Z (Qfloor y)) (1 # 2)) eqn:E1.
  - apply Qlt_bool_iff in E1. lra.
  - apply Qlt_bool_false in E1. destruct (Qlt_bool (1 # 2) (y - inject_Z (Qfloor y))) eqn:E2.
    + apply Qlt_bool_iff in E2. rewrite P1. lra.
    + apply Qlt_bool_false in E2. destruct (Z.even _); [|rewrite P1]; lra.
Qed.

Lemma widening_none ks s : (forall k, In k ks -> k_used k = true -> s <= k_start k - eps12 \/ k_finish k + eps12 <= s) -> kerb_widening ks s = 0.
Proof.
  induction ks as [|k ks IH]; intros H; [reflexivity|]. cbn [kerb_widening].
  destruct (Qlt_bool (k_start k - eps12) s && Qlt_bool s (k_finish k + eps12) && k_used k)%bool eqn:E.
  - apply andb_prop in E. destruct E as [E U]. apply andb_prop in E. destruct E as [A B]. apply Qlt_bool_iff in A, B.
    destruct (H k (or_introl eq_refl) U); lra.
  - apply IH. intros k' Hk'. apply H. now right.
Qed.
Lemma widening_some ks s k : In k ks -> k_used k = true -> k_start k <= s <= k_finish k ->
  (forall k', In k' ks -> k_used k' = true -> k' = k \/ s <= k_start k' - eps12 \/ k_finish k' + eps12 <= s) -> kerb_widening ks s = k_width k.
Proof.
  intros Hin Hu Hs. induction ks as [|k0 ks IH]; intros H; [destruct Hin|]. cbn [kerb_widening].
  assert (P : 0 < eps12) by reflexivity.
  destruct (Qlt_bool (k_start k0 - eps12) s && Qlt_bool s (k_finish k0 + eps12) && k_used k0)%bool eqn:E.
  - apply andb_prop in E. destruct E as [E U]. apply andb_prop in E. destruct E as [A B]. apply Qlt_bool_iff in A, B.
    destruct (H k0 (or_introl eq_refl) U) as [->|[X|X]]; [reflexivity|lra|lra].
  - destruct Hin as [->|Hin].
    + rewrite Hu, andb_true_r in E. apply andb_false_elim in E.
      destruct E as [E|E]; apply Qlt_bool_false in E; lra.
    + apply (IH Hin). intros k' Hk'. apply H. now right.
Qed.

Lemma limit_node b s L n ks w i : (1 <= n)%nat -> length s = n -> (forall i, (S i < n)%nat -> nth i s 0 < nth (S i) s 0) ->
  (b = true -> nth (n - 1) s 0 < L) -> length w = n -> (i < n)%nat ->
  pwl (combine (arcs b s L) (closedv b 0 (widened ks s w))) (nth i s 0) == nth i w 0 + kerb_widening ks (nth i s 0).
Proof.
  intros Hn Hs Hinc Hend Hw Hi. assert (HL : length s = length w) by now rewrite Hs, Hw.
  eapply Qeq_trans; [apply (eval_node b s L n Hn Hs Hinc Hend (widened ks s w) i); [now rewrite widened_length|exact Hi]|].
  rewrite widened_nth; [reflexivity|exact HL|now rewrite Hs].
Qed.
Lemma limit_end b s L n ks w : (1 <= n)%nat -> length s = n -> (forall i, (S i < n)%nat -> nth i s 0 < nth (S i) s 0) ->
  (b = true -> nth (n - 1) s 0 < L) -> length w = n -> b = true ->
  pwl (combine (arcs b s L) (closedv b 0 (widened ks s w))) L == nth 0 w 0 + kerb_widening ks (nth 0 s 0).
Proof.
  intros Hn Hs Hinc Hend Hw Hb. assert (HL : length s = length w) by now rewrite Hs, Hw.
  eapply Qeq_trans; [apply (eval_end b s L n Hn Hs Hinc Hend (widened ks s w) Hb); now rewrite widened_length|].
  assert (HD : forall v : list Q, hd 0 v = nth 0 v 0) by (intros []; reflexivity). rewrite HD.
  rewrite widened_nth; [reflexivity|exact HL|now rewrite Hs].
Qed.
