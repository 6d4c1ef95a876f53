(** Property theorems C143: the kerbs of a computed circuit. *)
From Coq Require Import QArith Qfield Lqa Bool Arith Lia List Setoid.
From Verif Require Import M_Controls L_Pack M_Kerb S_Kerb L_Colloc3 L_Kerb M_CircuitKerbs S_CircuitKerbs.
Import ListNotations.
Local Open Scope nat_scope.

Lemma left_at ps i : i < length ps -> at_ (left_samples ps) i = MkSample (s_at ps i) (1 - percentage (point_at ps i)) (c_k (point_at ps i)).
Proof.
  intros H. unfold at_, left_samples, s_at, point_at.
  pose (f := fun p => MkSample (c_s p) (1 - percentage p) (c_k p)). change (nth i (map f ps) no_sample = f (nth i ps no_point)).
  rewrite (nth_indep _ no_sample (f no_point)) by (rewrite map_length; exact H). apply map_nth.
Qed.
Lemma right_at ps i : i < length ps -> at_ (right_samples ps) i = MkSample (s_at ps i) (percentage (point_at ps i)) (c_k (point_at ps i)).
Proof.
  intros H. unfold at_, right_samples, s_at, point_at.
  pose (f := fun p => MkSample (c_s p) (percentage p) (c_k p)). change (nth i (map f ps) no_sample = f (nth i ps no_point)).
  rewrite (nth_indep _ no_sample (f no_point)) by (rewrite map_length; exact H). apply map_nth.
Qed.

Lemma percentage_eq p : (0 < c_nl p + c_nr p)%Q -> (percentage p * (c_nl p + c_nr p) == c_n p + c_nl p)%Q.
Proof. intros H. unfold percentage. field. lra. Qed.
Lemma scaled_lt a b w : (0 < w)%Q -> ((a * w < b * w)%Q <-> (a < b)%Q).
Proof. intros H. apply Qmult_lt_r. exact H. Qed.

Lemma left_near p : (0 < c_nl p + c_nr p)%Q -> (4 # 5 < 1 - percentage p)%Q <-> near_left p.
Proof.
  intros H. pose proof (percentage_eq p H) as E. rewrite <- (scaled_lt _ _ _ H). unfold near_left.
  set (w := (c_nl p + c_nr p)%Q) in *. rewrite (Qmult_comm (1 - percentage p)), (Qmult_comm (4 # 5)).
  split; intros G.
  - assert (w * (1 - percentage p) == w - percentage p * w)%Q as E2 by ring. rewrite E2 in G. lra.
  - assert (w * (1 - percentage p) == w - percentage p * w)%Q as E2 by ring. rewrite E2. lra.
Qed.
Lemma right_near p : (0 < c_nl p + c_nr p)%Q -> (4 # 5 < percentage p)%Q <-> near_right p.
Proof.
  intros H. pose proof (percentage_eq p H) as E. rewrite <- (scaled_lt _ _ _ H). rewrite E. unfold near_right. split; intros G; lra.
Qed.

(** A run of the samples of a side is a stretch of the circuit near it. *)
Lemma run_stretch (P : cpoint -> Prop) f ps : length (f ps) = length ps -> (forall i, i < length ps -> above (f ps) i <-> P (point_at ps i)) ->
  forall i j, run_of (f ps) i j <-> stretch P ps i j.
Proof.
  intros L A i j. unfold run_of, stretch. rewrite L. split; intros (H1 & H2 & H3 & H4 & H5).
  - split; [exact H1|]. split; [exact H2|]. split; [intros k Hk; apply A; [lia|apply H3; exact Hk]|].
    split; [intros Hi G; apply (H4 Hi); apply A; [lia|exact G] | intros Hj G; apply (H5 Hj); apply A; [lia|exact G]].
  - split; [exact H1|]. split; [exact H2|]. split; [intros k Hk; apply A; [lia|apply H3; exact Hk]|].
    split; [intros Hi G; apply (H4 Hi); apply A; [lia|exact G] | intros Hj G; apply (H5 Hj); apply A; [lia|exact G]].
Qed.
Lemma left_runs ps i j : wide ps -> run_of (left_samples ps) i j <-> stretch near_left ps i j.
Proof.
  intros W. apply (run_stretch near_left left_samples); [apply map_length|]. intros k Hk. unfold above. rewrite left_at by exact Hk. apply left_near. apply W, Hk.
Qed.
Lemma right_runs ps i j : wide ps -> run_of (right_samples ps) i j <-> stretch near_right ps i j.
Proof.
  intros W. apply (run_stretch near_right right_samples); [apply map_length|]. intros k Hk. unfold above. rewrite right_at by exact Hk. apply right_near. apply W, Hk.
Qed.

Lemma between side width use ext f ps i j k : (forall m, m < length ps -> arclength (f ps) m = s_at ps m) -> i < length ps -> j < length ps ->
  kerb_of_run side width use ext (f ps) i j k -> kerb_between width use ext ps i j k.
Proof.
  intros A Hi Hj (H1 & H2 & H3). rewrite A in H1, H2 by assumption. split; [exact H1|]. split; [exact H2|].
  destruct H3 as [(_ & H3)|(_ & H3)]; [left|right]; exact H3.
Qed.

Lemma two_tables width use ext ps l r : circuit_kerbs true width use ext ps = Ok (l, r) ->
  kerb_compute side_left width use ext (left_samples ps) = Ok l /\ kerb_compute side_right width use ext (right_samples ps) = Ok r.
Proof.
  unfold circuit_kerbs. destruct (kerb_compute side_left _ _ _ _) as [a| |]; [|discriminate|discriminate]. cbn [bind].
  destruct (kerb_compute side_right _ _ _ _) as [b| |]; [|discriminate|discriminate]. cbn [bind]. intros [= -> ->]. split; reflexivity.
Qed.

(** The left table has the kerbs of the stretches along which the path of minimum curvature is near the left boundary, the right table those near
    the right one. Missing: the stretch that reaches the last point (C37). *)
Theorem C143_left_partial : forall width use ext ps l r, wide ps -> circuit_kerbs true width use ext ps = Ok (l, r) ->
  (forall i j, stretch near_left ps i j -> j < length ps -> exists k, In k l /\ kerb_between width use ext ps i j k) /\
  (forall k, In k l -> exists i j, stretch near_left ps i j /\ j < length ps /\ kerb_between width use ext ps i j k).
Proof.
  intros width use ext ps l r W H. apply two_tables in H. destruct H as [H _].
  assert (L : length (left_samples ps) = length ps) by apply map_length.
  assert (A : forall m, m < length ps -> arclength (left_samples ps) m = s_at ps m) by (intros m Hm; unfold arclength; rewrite left_at by exact Hm; reflexivity).
  destruct (compute_runs _ _ _ _ _ _ H) as [R1 R2]. split.
  - intros i j Hs Hj. destruct (R2 i j) as (k & Hk & Ok); [apply left_runs; assumption|rewrite L; exact Hj|].
    exists k. split; [exact Hk|]. destruct Hs as (S1 & _). apply (between _ _ _ _ left_samples ps i j k A) in Ok; [exact Ok|lia|lia].
  - intros k Hk. destruct (R1 k Hk) as (i & j & Hr & Hj & Ok). rewrite L in Hj. exists i, j. split; [apply left_runs; assumption|]. split; [exact Hj|].
    destruct Hr as (S1 & _). apply (between _ _ _ _ left_samples ps i j k A) in Ok; [exact Ok|lia|lia].
Qed.
Theorem C143_right_partial : forall width use ext ps l r, wide ps -> circuit_kerbs true width use ext ps = Ok (l, r) ->
  (forall i j, stretch near_right ps i j -> j < length ps -> exists k, In k r /\ kerb_between width use ext ps i j k) /\
  (forall k, In k r -> exists i j, stretch near_right ps i j /\ j < length ps /\ kerb_between width use ext ps i j k).
Proof.
  intros width use ext ps l r W H. apply two_tables in H. destruct H as [_ H].
  assert (L : length (right_samples ps) = length ps) by apply map_length.
  assert (A : forall m, m < length ps -> arclength (right_samples ps) m = s_at ps m) by (intros m Hm; unfold arclength; rewrite right_at by exact Hm; reflexivity).
  destruct (compute_runs _ _ _ _ _ _ H) as [R1 R2]. split.
  - intros i j Hs Hj. destruct (R2 i j) as (k & Hk & Ok); [apply right_runs; assumption|rewrite L; exact Hj|].
    exists k. split; [exact Hk|]. destruct Hs as (S1 & _). apply (between _ _ _ _ right_samples ps i j k A) in Ok; [exact Ok|lia|lia].
  - intros k Hk. destruct (R1 k Hk) as (i & j & Hr & Hj & Ok). rewrite L in Hj. exists i, j. split; [apply right_runs; assumption|]. split; [exact Hj|].
    destruct Hr as (S1 & _). apply (between _ _ _ _ right_samples ps i j k A) in Ok; [exact Ok|lia|lia].
Qed.

(** A stretch that reaches the end has no kerb, also on a closed circuit. *)
Theorem C143_last_stretch_refuted : ~ (forall width use ext ps l r i j, wide ps -> arclength_increases ps ->
  circuit_kerbs true width use ext ps = Ok (l, r) -> stretch near_left ps i j -> exists k, In k l /\ k_start k = s_at ps i).
Proof.
  intros A. destruct (A 1%Q true 1%Q [CPoint 0 0 5 5 0; CPoint 10 (-4) 5 5 0; CPoint 20 (-4) 5 5 0] [] [] 1 3) as (k & [] & _).
  - intros i Hi. cbn in Hi. destruct i as [|[|[|i]]]; [reflexivity|reflexivity|reflexivity|lia].
  - intros i Hi. cbn in Hi. destruct i as [|[|i]]; [reflexivity|reflexivity|lia].
  - vm_compute. reflexivity.
  - split; [lia|]. split; [cbn; lia|]. split; [intros k Hk; destruct k as [|[|[|k]]]; try lia; reflexivity|].
    split; [intros _ G; vm_compute in G; discriminate | cbn; lia].
Qed.

(** The two tables are computed, whatever the path, if the points are at least 1e-8 apart. *)
Theorem C143_never_throws : forall compute width use ext ps, (forall i, S i < length ps -> (1 # 10 ^ 8 <= s_at ps (S i) - s_at ps i)%Q) ->
  exists l r, circuit_kerbs compute width use ext ps = Ok (l, r).
Proof.
  intros compute width use ext ps H. destruct compute; [|exists [], []; reflexivity]. unfold circuit_kerbs.
  destruct (compute_no_throw side_left width use ext (left_samples ps)) as [l ->].
  { intros i Hi. unfold left_samples in Hi. rewrite map_length in Hi. unfold arclength. rewrite !left_at by lia. cbn [sa_s]. apply H. exact Hi. }
  destruct (compute_no_throw side_right width use ext (right_samples ps)) as [r ->].
  { intros i Hi. unfold right_samples in Hi. rewrite map_length in Hi. unfold arclength. rewrite !right_at by lia. cbn [sa_s]. apply H. exact Hi. }
  exists l, r. reflexivity.
Qed.

Lemma s_mono ps : arclength_increases ps -> forall a b, a <= b < length ps -> (s_at ps a <= s_at ps b)%Q.
Proof.
  intros H a b. induction b as [|b IH]; intros Hb.
  - assert (a = 0) by lia. subst. apply Qle_refl.
  - destruct (Nat.eq_dec a (S b)) as [->|N]; [apply Qle_refl|]. apply Qle_trans with (s_at ps b); [apply IH; lia|]. apply Qlt_le_weak, H. lia.
Qed.
(** A kerb on the left and a kerb on the right never lie side by side. *)
Theorem C143_sides_apart : forall width use ext ps l r k k', wide ps -> arclength_increases ps -> circuit_kerbs true width use ext ps = Ok (l, r) ->
  In k l -> In k' r -> (k_finish k <= k_start k')%Q \/ (k_finish k' <= k_start k)%Q.
Proof.
  intros width use ext ps l r k k' W I H Hk Hk'.
  destruct (C143_left_partial _ _ _ _ _ _ W H) as [_ HL]. destruct (C143_right_partial _ _ _ _ _ _ W H) as [_ HR].
  destruct (HL k Hk) as (i & j & (A1 & A2 & A3 & _) & Lj & (-> & -> & _)).
  destruct (HR k' Hk') as (i' & j' & (B1 & B2 & B3 & _) & Lj' & (-> & -> & _)).
  assert (D : forall m, ~ (i <= m < j /\ i' <= m < j')).
  { intros m [M1 M2]. pose proof (A3 m M1) as G1. pose proof (B3 m M2) as G2. unfold near_left in G1. unfold near_right in G2.
    pose proof (W m ltac:(lia)) as G3. lra. }
  destruct (Nat.le_gt_cases j i') as [C|C]; [left; apply s_mono; [exact I|lia]|].
  destruct (Nat.le_gt_cases j' i) as [C'|C']; [right; apply s_mono; [exact I|lia]|].
  exfalso. apply (D (Nat.max i i')). lia.
Qed.

(** Seen in a mirror, the circuit has the same kerbs on the other sides. *)
Definition alike (side side' : Q) (a b : sample) : Prop := sa_s a = sa_s b /\ (sa_n a == sa_n b)%Q /\ (side * sa_k a == side' * sa_k b)%Q.
Lemma alike_trapz side side' l l' : Forall2 (alike side side') l l' ->
  (trapz (map (fun p => (sa_s p, side * (sa_n p - (1 # 2)) * sa_k p)) l) == trapz (map (fun p => (sa_s p, side' * (sa_n p - (1 # 2)) * sa_k p)) l'))%Q.
Proof.
  assert (V : forall a b, alike side side' a b -> (side * (sa_n a - (1 # 2)) * sa_k a == side' * (sa_n b - (1 # 2)) * sa_k b)%Q).
  { intros a b (_ & E1 & E2). transitivity ((sa_n a - (1 # 2)) * (side * sa_k a))%Q; [ring|]. rewrite E1, E2. ring. }
  intros H. induction H as [|a b l l' Hab H IH]; [reflexivity|].
  destruct H as [|a2 b2 l l' Hab2 H]; [reflexivity|]. cbn [map trapz] in *. rewrite IH.
  rewrite (V a b Hab), (V a2 b2 Hab2). destruct Hab as (-> & _). destruct Hab2 as (-> & _). reflexivity.
Qed.
Lemma alike_last side side' l l' d : Forall2 (alike side side') l l' -> sa_s (last l d) = sa_s (last l' d) /\ sa_s (hd d l) = sa_s (hd d l').
Proof.
  intros H. split.
  - induction H as [|a b l l' Hab H IH]; [reflexivity|]. destruct H as [|a2 b2 l l' Hab2 H]; [apply Hab|]. exact IH.
  - destruct H as [|a b l l' Hab H]; [reflexivity|apply Hab].
Qed.
Lemma Qlt_bool_same a b a' b' : (a == a')%Q -> (b == b')%Q -> Qlt_bool a b = Qlt_bool a' b'.
Proof.
  intros E1 E2. destruct (Qlt_bool a b) eqn:T, (Qlt_bool a' b') eqn:T'; try reflexivity.
  - apply Qlt_bool_iff in T. rewrite E1, E2 in T. apply Qlt_bool_iff in T. congruence.
  - apply Qlt_bool_iff in T'. rewrite <- E1, <- E2 in T'. apply Qlt_bool_iff in T'. congruence.
Qed.
Lemma alike_kerb side side' width use ext l l' : Forall2 (alike side side') l l' -> make_kerb side width use ext l = make_kerb side' width use ext l'.
Proof.
  intros H. unfold make_kerb. destruct (alike_last side side' l l' (MkSample 0 0 0) H) as [E1 E2]. rewrite E1, E2.
  assert (E : interior side l = interior side' l').
  { unfold interior. apply Qlt_bool_same; [reflexivity|]. unfold mean_integrand. rewrite (alike_trapz _ _ _ _ H), E1, E2. reflexivity. }
  rewrite E. reflexivity.
Qed.
Lemma alike_loop side side' width use ext : forall ps ps' cur cur' ks, Forall2 (alike side side') ps ps' -> Forall2 (alike side side') cur cur' ->
  bind (kerb_loop side width use ext ps (cur, ks)) (fun st => Ok (snd st)) = bind (kerb_loop side' width use ext ps' (cur', ks)) (fun st => Ok (snd st)).
Proof.
  intros ps ps' cur cur' ks H. revert cur cur' ks. induction H as [|a b ps ps' Hab H IH]; intros cur cur' ks HC; [reflexivity|].
  cbn [kerb_loop]. unfold kerb_step. rewrite (Qlt_bool_same threshold (sa_n a) threshold (sa_n b)) by (try reflexivity; apply Hab).
  destruct (Qlt_bool threshold (sa_n b)).
  - cbn [bind]. apply IH. apply Forall2_app; [exact HC|]. constructor; [exact Hab|constructor].
  - assert (HL : length cur = length cur') by (clear -HC; induction HC; cbn; congruence). rewrite HL.
    destruct (1 <? length cur')%nat; [|cbn [bind]; apply IH; constructor].
    rewrite (alike_kerb side side' width use ext (cur ++ [a]) (cur' ++ [b])) by (apply Forall2_app; [exact HC|constructor; [exact Hab|constructor]]).
    destruct (append_kerb ks _) as [ks'| |]; [|reflexivity|reflexivity]. cbn [bind]. apply IH. constructor.
Qed.
Lemma alike_compute side side' width use ext ps ps' : Forall2 (alike side side') ps ps' ->
  kerb_compute side width use ext ps = kerb_compute side' width use ext ps'.
Proof. intros H. unfold kerb_compute. apply alike_loop; [exact H|constructor]. Qed.

Theorem C143_mirror : forall compute width use ext ps l r, wide ps -> circuit_kerbs compute width use ext ps = Ok (l, r) ->
  circuit_kerbs compute width use ext (map mirror_point ps) = Ok (r, l).
Proof.
  intros compute width use ext ps l r W H. destruct compute; [|injection H as <- <-; reflexivity]. apply two_tables in H. destruct H as [HL HR].
  assert (W' : Forall (fun p => 0 < c_nl p + c_nr p)%Q ps).
  { apply Forall_forall. intros p Hp. destruct (In_nth _ _ no_point Hp) as (i & Hi & <-). apply W, Hi. }
  unfold circuit_kerbs.
  replace (kerb_compute side_left width use ext (left_samples (map mirror_point ps))) with (Ok r).
  2:{ rewrite <- HR. apply alike_compute. unfold left_samples, right_samples. rewrite map_map.
      clear -W'. induction W' as [|p ps Hp W' IH]; [constructor|]. cbn [map]. constructor; [|exact IH].
      unfold alike, side_left, side_right, percentage, mirror_point. cbn. split; [reflexivity|]. split; [field; lra|ring]. }
  replace (kerb_compute side_right width use ext (right_samples (map mirror_point ps))) with (Ok l).
  2:{ rewrite <- HL. apply alike_compute. unfold left_samples, right_samples. rewrite map_map.
      clear -W'. induction W' as [|p ps Hp W' IH]; [constructor|]. cbn [map]. constructor; [|exact IH].
      unfold alike, side_left, side_right, percentage, mirror_point. cbn. split; [reflexivity|]. split; [field; lra|ring]. }
  reflexivity.
Qed.

(** Kerbs inside a bend are not used; kerbs at the outside of a bend or along a straight are, if the user wants so. *)
Lemma area_ge (c : Q) f s : forall len i, (forall m, i <= m < i + len -> (s m < s (S m))%Q /\ (2 * c <= f m + f (S m))%Q) ->
  (c * (s (i + len)%nat - s i) <= area f s i len)%Q.
Proof.
  induction len as [|len IH]; intros i H; cbn [area].
  - rewrite Nat.add_0_r. lra.
  - destruct (H i ltac:(lia)) as [H1 H2]. specialize (IH (S i) ltac:(intros m Hm; apply H; lia)). replace (i + S len) with (S i + len) by lia.
    assert (0 <= (s (S i) - s i) * (f i + f (S i) - 2 * c))%Q by (apply Qmult_le_0_compat; lra). lra.
Qed.
Lemma area_le (c : Q) f s : forall len i, (forall m, i <= m < i + len -> (s m < s (S m))%Q /\ (f m + f (S m) <= 2 * c)%Q) ->
  (area f s i len <= c * (s (i + len)%nat - s i))%Q.
Proof.
  induction len as [|len IH]; intros i H; cbn [area].
  - rewrite Nat.add_0_r. lra.
  - destruct (H i ltac:(lia)) as [H1 H2]. specialize (IH (S i) ltac:(intros m Hm; apply H; lia)). replace (i + S len) with (S i + len) by lia.
    assert (0 <= (s (S i) - s i) * (2 * c - (f i + f (S i))))%Q by (apply Qmult_le_0_compat; lra). lra.
Qed.
Lemma mean_inner side xs i j K : i < j -> (forall m, i <= m < j -> (arclength xs m < arclength xs (S m))%Q) ->
  (forall m, i <= m < j -> (4 # 5 < sa_n (at_ xs m))%Q) -> (1 # 2 <= sa_n (at_ xs j))%Q ->
  (forall m, i <= m <= j -> (K <= side * sa_k (at_ xs m))%Q) -> (1 # 150 < K)%Q -> (1 # 1000 < mean_over side xs i j)%Q.
Proof.
  intros Hij Hs Hn Hj Hk HK.
  assert (F0 : (0 <= side * (sa_n (at_ xs j) - (1 # 2)) * sa_k (at_ xs j))%Q).
  { assert (E : (side * (sa_n (at_ xs j) - (1 # 2)) * sa_k (at_ xs j) == (sa_n (at_ xs j) - (1 # 2)) * (side * sa_k (at_ xs j)))%Q) by ring.
    rewrite E. pose proof (Hk j ltac:(lia)). apply Qmult_le_0_compat; lra. }
  assert (F1 : forall m, i <= m < j -> ((3 # 10) * K <= side * (sa_n (at_ xs m) - (1 # 2)) * sa_k (at_ xs m))%Q).
  { intros m Hm. assert (E : (side * (sa_n (at_ xs m) - (1 # 2)) * sa_k (at_ xs m) == (sa_n (at_ xs m) - (1 # 2)) * (side * sa_k (at_ xs m)))%Q) by ring.
    rewrite E. pose proof (Hk m ltac:(lia)) as G1. pose proof (Hn m Hm) as G2.
    assert (0 <= (sa_n (at_ xs m) - (4 # 5)) * (side * sa_k (at_ xs m)))%Q by (apply Qmult_le_0_compat; lra). lra. }
  pose proof (area_ge ((3 # 20) * K) (fun k => (side * (sa_n (at_ xs k) - (1 # 2)) * sa_k (at_ xs k))%Q) (arclength xs) (j - i) i) as A.
  replace (i + (j - i)) with j in A by lia.
  assert (A' : ((3 # 20) * K * (arclength xs j - arclength xs i) <= area (fun k => side * (sa_n (at_ xs k) - (1 # 2)) * sa_k (at_ xs k)) (arclength xs) i (j - i))%Q).
  { apply A. intros m Hm. split; [apply Hs; lia|]. destruct (Nat.eq_dec (S m) j) as [E|N].
    - rewrite E. pose proof (F1 m ltac:(lia)). lra.
    - pose proof (F1 m ltac:(lia)). pose proof (F1 (S m) ltac:(lia)). lra. }
  assert (S : (0 < arclength xs j - arclength xs i)%Q).
  { pose proof (area_ge 1 (fun _ => 1%Q) (arclength xs) (j - i) i) as B. clear -Hs Hij.
    assert (G : forall d, i + S d <= j -> (arclength xs i < arclength xs (i + S d)%nat)%Q).
    { induction d as [|d IH]; intros Hd; [replace (i + 1) with (S i) by lia; apply Hs; lia|].
      apply Qlt_trans with (arclength xs (i + S d)%nat); [apply IH; lia|]. replace (i + S (S d)) with (S (i + S d)) by lia. apply Hs. lia. }
    specialize (G (j - i - 1) ltac:(lia)). replace (i + S (j - i - 1)) with j in G by lia. lra. }
  unfold mean_over. apply Qlt_shift_div_l; [exact S|]. assert (0 < ((3 # 20) * K - (1 # 1000)) * (arclength xs j - arclength xs i))%Q; [|lra].
  apply Qmult_lt_0_compat; lra.
Qed.
Lemma mean_outer side xs i j : i < j -> (forall m, i <= m < j -> (arclength xs m < arclength xs (S m))%Q) ->
  (forall m, i <= m <= j -> (1 # 2 <= sa_n (at_ xs m))%Q) ->
  (forall m, i <= m <= j -> (side * sa_k (at_ xs m) <= 0)%Q) -> (mean_over side xs i j <= 1 # 1000)%Q.
Proof.
  intros Hij Hs Hn Hk.
  assert (F1 : forall m, i <= m <= j -> (side * (sa_n (at_ xs m) - (1 # 2)) * sa_k (at_ xs m) <= 0)%Q).
  { intros m Hm. assert (E : (side * (sa_n (at_ xs m) - (1 # 2)) * sa_k (at_ xs m) == - ((sa_n (at_ xs m) - (1 # 2)) * (- (side * sa_k (at_ xs m)))))%Q) by ring.
    rewrite E. pose proof (Hk m Hm). pose proof (Hn m Hm).
    assert (0 <= (sa_n (at_ xs m) - (1 # 2)) * - (side * sa_k (at_ xs m)))%Q by (apply Qmult_le_0_compat; lra). lra. }
  pose proof (area_le 0 (fun k => (side * (sa_n (at_ xs k) - (1 # 2)) * sa_k (at_ xs k))%Q) (arclength xs) (j - i) i) as A.
  replace (i + (j - i)) with j in A by lia.
  assert (A' : (area (fun k => side * (sa_n (at_ xs k) - (1 # 2)) * sa_k (at_ xs k)) (arclength xs) i (j - i) <= 0 * (arclength xs j - arclength xs i))%Q).
  { apply A. intros m Hm. split; [apply Hs; lia|]. pose proof (F1 m ltac:(lia)). pose proof (F1 (S m) ltac:(lia)). lra. }
  assert (S : (0 < arclength xs j - arclength xs i)%Q).
  { clear -Hs Hij.
    assert (G : forall d, i + S d <= j -> (arclength xs i < arclength xs (i + S d)%nat)%Q).
    { induction d as [|d IH]; intros Hd; [replace (i + 1) with (S i) by lia; apply Hs; lia|].
      apply Qlt_trans with (arclength xs (i + S d)%nat); [apply IH; lia|]. replace (i + S (S d)) with (S (i + S d)) by lia. apply Hs. lia. }
    specialize (G (j - i - 1) ltac:(lia)). replace (i + S (j - i - 1)) with j in G by lia. lra. }
  unfold mean_over. apply Qle_shift_div_r; [exact S|]. lra.
Qed.

Lemma half_left p : (0 < c_nl p + c_nr p)%Q -> left_half p -> (1 # 2 <= 1 - percentage p)%Q.
Proof.
  intros H G. pose proof (percentage_eq p H) as E. unfold left_half in G. destruct (Qlt_le_dec (1 - percentage p) (1 # 2)) as [C|C]; [|exact C].
  exfalso. apply (scaled_lt _ _ _ H) in C. assert ((1 - percentage p) * (c_nl p + c_nr p) == (c_nl p + c_nr p) - percentage p * (c_nl p + c_nr p))%Q as E2 by ring.
  rewrite E2, E in C. lra.
Qed.
Lemma half_right p : (0 < c_nl p + c_nr p)%Q -> right_half p -> (1 # 2 <= percentage p)%Q.
Proof.
  intros H G. pose proof (percentage_eq p H) as E. unfold right_half in G. destruct (Qlt_le_dec (percentage p) (1 # 2)) as [C|C]; [|exact C].
  exfalso. apply (scaled_lt _ _ _ H) in C. rewrite E in C. lra.
Qed.

(** A positive curvature turns to the right. *)
Theorem C143_inside : forall width use ext ps l r i j K, wide ps -> arclength_increases ps -> circuit_kerbs true width use ext ps = Ok (l, r) ->
  j < length ps -> (1 # 150 < K)%Q ->
  (stretch near_left ps i j -> left_half (point_at ps j) -> (forall m, i <= m <= j -> (c_k (point_at ps m) <= - K)%Q) ->
   exists k, In k l /\ k_start k = s_at ps i /\ k_finish k = s_at ps j /\ (k_width k == width)%Q /\ k_used k = false) /\
  (stretch near_right ps i j -> right_half (point_at ps j) -> (forall m, i <= m <= j -> (K <= c_k (point_at ps m))%Q) ->
   exists k, In k r /\ k_start k = s_at ps i /\ k_finish k = s_at ps j /\ (k_width k == width)%Q /\ k_used k = false).
Proof.
  intros width use ext ps l r i j K W I H Hj HK. apply two_tables in H. destruct H as [HL HR]. split; intros Hs Hh Hk.
  - destruct (compute_runs _ _ _ _ _ _ HL) as [_ R2]. destruct (R2 i j) as (k & Hin & K1 & K2 & K3); [apply left_runs; assumption|unfold left_samples; rewrite map_length; exact Hj|].
    exists k. split; [exact Hin|]. destruct Hs as (S1 & S2 & S3 & _). unfold arclength in K1, K2. rewrite left_at in K1, K2 by lia.
    split; [exact K1|]. split; [exact K2|].
    assert (M : (1 # 1000 < mean_over side_left (left_samples ps) i j)%Q).
    { apply mean_inner with (K := K); [lia| | | | |exact HK].
      - intros m Hm. unfold arclength. rewrite !left_at by lia. apply I. lia.
      - intros m Hm. rewrite left_at by lia. apply left_near; [apply W; lia|]. apply S3, Hm.
      - rewrite left_at by lia. apply half_left; [apply W; lia|exact Hh].
      - intros m Hm. rewrite left_at by lia. cbn [sa_k]. pose proof (Hk m Hm). unfold side_left. lra. }
    destruct K3 as [(_ & K3)|(K3 & _)]; [exact K3|]. exfalso. lra.
  - destruct (compute_runs _ _ _ _ _ _ HR) as [_ R2]. destruct (R2 i j) as (k & Hin & K1 & K2 & K3); [apply right_runs; assumption|unfold right_samples; rewrite map_length; exact Hj|].
    exists k. split; [exact Hin|]. destruct Hs as (S1 & S2 & S3 & _). unfold arclength in K1, K2. rewrite right_at in K1, K2 by lia.
    split; [exact K1|]. split; [exact K2|].
    assert (M : (1 # 1000 < mean_over side_right (right_samples ps) i j)%Q).
    { apply mean_inner with (K := K); [lia| | | | |exact HK].
      - intros m Hm. unfold arclength. rewrite !right_at by lia. apply I. lia.
      - intros m Hm. rewrite right_at by lia. apply right_near; [apply W; lia|]. apply S3, Hm.
      - rewrite right_at by lia. apply half_right; [apply W; lia|exact Hh].
      - intros m Hm. rewrite right_at by lia. cbn [sa_k]. pose proof (Hk m Hm). unfold side_right. lra. }
    destruct K3 as [(_ & K3)|(K3 & _)]; [exact K3|]. exfalso. lra.
Qed.
Theorem C143_outside : forall width use ext ps l r i j, wide ps -> arclength_increases ps -> circuit_kerbs true width use ext ps = Ok (l, r) ->
  j < length ps ->
  (stretch near_left ps i j -> left_half (point_at ps j) -> (forall m, i <= m <= j -> (0 <= c_k (point_at ps m))%Q) ->
   exists k, In k l /\ k_start k = s_at ps i /\ k_finish k = s_at ps j /\ (k_width k == ext * width)%Q /\ k_used k = use) /\
  (stretch near_right ps i j -> right_half (point_at ps j) -> (forall m, i <= m <= j -> (c_k (point_at ps m) <= 0)%Q) ->
   exists k, In k r /\ k_start k = s_at ps i /\ k_finish k = s_at ps j /\ (k_width k == ext * width)%Q /\ k_used k = use).
Proof.
  intros width use ext ps l r i j W I H Hj. apply two_tables in H. destruct H as [HL HR]. split; intros Hs Hh Hk.
  - destruct (compute_runs _ _ _ _ _ _ HL) as [_ R2]. destruct (R2 i j) as (k & Hin & K1 & K2 & K3); [apply left_runs; assumption|unfold left_samples; rewrite map_length; exact Hj|].
    exists k. split; [exact Hin|]. destruct Hs as (S1 & S2 & S3 & _). unfold arclength in K1, K2. rewrite left_at in K1, K2 by lia.
    split; [exact K1|]. split; [exact K2|].
    assert (M : (mean_over side_left (left_samples ps) i j <= 1 # 1000)%Q).
    { apply mean_outer; [lia| | |].
      - intros m Hm. unfold arclength. rewrite !left_at by lia. apply I. lia.
      - intros m Hm. rewrite left_at by lia. destruct (Nat.eq_dec m j) as [->|N]; [apply half_left; [apply W; lia|exact Hh]|].
        apply Qle_trans with (4 # 5)%Q; [discriminate|]. apply Qlt_le_weak. apply left_near; [apply W; lia|]. apply S3. lia.
      - intros m Hm. rewrite left_at by lia. cbn [sa_k]. pose proof (Hk m Hm). unfold side_left. lra. }
    destruct K3 as [(K3 & _)|(_ & K3)]; [|exact K3]. exfalso. lra.
  - destruct (compute_runs _ _ _ _ _ _ HR) as [_ R2]. destruct (R2 i j) as (k & Hin & K1 & K2 & K3); [apply right_runs; assumption|unfold right_samples; rewrite map_length; exact Hj|].
    exists k. split; [exact Hin|]. destruct Hs as (S1 & S2 & S3 & _). unfold arclength in K1, K2. rewrite right_at in K1, K2 by lia.
    split; [exact K1|]. split; [exact K2|].
    assert (M : (mean_over side_right (right_samples ps) i j <= 1 # 1000)%Q).
    { apply mean_outer; [lia| | |].
      - intros m Hm. unfold arclength. rewrite !right_at by lia. apply I. lia.
      - intros m Hm. rewrite right_at by lia. destruct (Nat.eq_dec m j) as [->|N]; [apply half_right; [apply W; lia|exact Hh]|].
        apply Qle_trans with (4 # 5)%Q; [discriminate|]. apply Qlt_le_weak. apply right_near; [apply W; lia|]. apply S3. lia.
      - intros m Hm. rewrite right_at by lia. cbn [sa_k]. pose proof (Hk m Hm). unfold side_right. lra. }
    destruct K3 as [(K3 & _)|(_ & K3)]; [|exact K3]. exfalso. lra.
Qed.

(** Without the option there are none. *)
Theorem C143_off : forall width use ext ps, circuit_kerbs false width use ext ps = Ok ([], []).
Proof. reflexivity. Qed.

(** A circuit with a bend to the left, its kerb on the inside, then one on the outside at the right. *)
Definition bend : list cpoint :=
  [CPoint 0 0 6 4 0; CPoint 10 (-5) 6 4 (-1 # 50); CPoint 20 (-5) 6 4 (-1 # 50); CPoint 30 (-2) 6 4 (-1 # 50);
   CPoint 40 3 6 4 (-1 # 100); CPoint 50 3 6 4 (-1 # 100); CPoint 60 1 6 4 (-1 # 100); CPoint 70 0 6 4 0].
Example C143_case : wide bend /\ arclength_increases bend /\
  circuit_kerbs true 2 true (-1) bend = Ok ([MkKerb 10 30 2 false], [MkKerb 40 60 (-2) true]) /\
  stretch near_left bend 1 3 /\ left_half (point_at bend 3) /\ stretch near_right bend 4 6 /\ right_half (point_at bend 6) /\
  (forall m, 1 <= m <= 3 -> (c_k (point_at bend m) <= - (1 # 50))%Q) /\ (forall m, 4 <= m <= 6 -> (c_k (point_at bend m) <= 0)%Q) /\
  circuit_kerbs true 2 true (-1) (map mirror_point bend) = Ok ([MkKerb 40 60 (-2) true], [MkKerb 10 30 2 false]).
Proof.
  split; [intros i Hi; cbn in Hi; do 8 (destruct i as [|i]; [reflexivity|]); lia|].
  split; [intros i Hi; cbn in Hi; do 7 (destruct i as [|i]; [reflexivity|]); lia|].
  split; [vm_compute; reflexivity|].
  split. { split; [lia|]. split; [cbn; lia|]. split; [intros k Hk; destruct k as [|[|[|k]]]; try lia; reflexivity|]. split; intros _ G; vm_compute in G; discriminate. }
  split; [vm_compute; discriminate|].
  split. { split; [lia|]. split; [cbn; lia|]. split; [intros k Hk; do 6 (destruct k as [|k]; [try lia; reflexivity|]); lia|]. split; intros _ G; vm_compute in G; discriminate. }
  split; [vm_compute; discriminate|].
  split; [intros m Hm; do 4 (destruct m as [|m]; [try lia; vm_compute; discriminate|]); lia|].
  split; [intros m Hm; do 7 (destruct m as [|m]; [try lia; vm_compute; discriminate|]); lia|].
  vm_compute. reflexivity.
Qed.

Print Assumptions C143_left_partial.
Print Assumptions C143_right_partial.
Print Assumptions C143_last_stretch_refuted.
Print Assumptions C143_never_throws.
Print Assumptions C143_sides_apart.
Print Assumptions C143_mirror.
Print Assumptions C143_inside.
Print Assumptions C143_outside.
Print Assumptions C143_off.
