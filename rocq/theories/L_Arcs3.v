(** Lemmas on tracks made of arcs: the built track, closed tracks. *)
From Coq Require Import Reals String Lra Lia.
From Coquelicot Require Import Coquelicot.
From Coq Require Import List.
From Verif Require Import M_Vec M_Controls M_Arcs S_Road S_Arcs L_Arcs L_Arcs2.
Import ListNotations.
Local Open Scope R_scope.

Lemma start_unit : flat_unit (V 1 0 0).
Proof. split; cbn; ring. Qed.

Lemma built scale width closed children t : children <> [] -> Forall (proper scale) children ->
  build scale width closed children = Ok t ->
  fits (a_segments t) vzero (V 1 0 0) 0 /\
    length (a_segments t) = length children /\ Forall (fun g => flat_unit (g_dir g)) (a_segments t) /\
    (Forall (not_huge scale) children -> linked (a_segments t)) /\
    (forall i g, nth_error (a_segments t) i = Some g -> exists c, nth_error children i = Some c /\ g_k g = declared_curvature scale c /\
       g_s g = start_of scale children i) /\
    (closed = false -> a_total t = fold_right Rplus 0 (map (declared_length scale) children)).
Proof.
  intros Hne Hp. unfold build.
  destruct (lay_spec scale closed vzero children vzero (V 1 0 0) 0 0 Hne Hp start_unit) as (l & T & E & F & Ln & U & Lk & K & Tt).
  rewrite E. cbn [bind fst snd]. intros [= <-]. cbn [a_segments a_total].
  split; [exact F|]. split; [exact Ln|]. split; [exact U|]. split; [exact Lk|]. split.
  - intros i g Hi. destruct (K i g Hi) as (c & A & B & C). exists c. split; [exact A|]. split; [exact B|]. rewrite C. ring.
  - intros Hc. rewrite (Tt Hc). ring.
Qed.

Lemma build_ok scale width closed children : children <> [] -> Forall (proper scale) children ->
  exists t, build scale width closed children = Ok t.
Proof.
  intros Hne Hp. unfold build.
  destruct (lay_spec scale closed vzero children vzero (V 1 0 0) 0 0 Hne Hp start_unit) as (l & T & E & _).
  rewrite E. cbn. eauto.
Qed.

Lemma arcs_at_along t s : a_segments t <> [] -> arcs_at t s = Ok (along (a_segments t) s).
Proof.
  intros H. unfold arcs_at, along. destruct (find_some _ s H) as (g & E & _). rewrite E. reflexivity.
Qed.
Lemma reported_along f t : a_segments t <> [] -> forall s, reported f t s = f (along (a_segments t) s).
Proof. intros H s. unfold reported. now rewrite arcs_at_along. Qed.

Lemma nonempty (l : list segment) (c : list node) : length l = length c -> c <> [] -> l <> [].
Proof. intros L N ->. destruct c; [now apply N | discriminate]. Qed.

Lemma along_in l s : l <> [] -> exists g, In g l /\ along l s = segment_at g s.
Proof. intros H. unfold along. destruct (find_some l s H) as (g & E & I). rewrite E. eauto. Qed.

Lemma vderive_ext' f g t d : (forall x, f x = g x) -> vderive f t d -> vderive g t d.
Proof. intros E. apply vderive_ext_loc. apply filter_forall. exact E. Qed.

Lemma start_grow scale children i j : Forall (proper scale) children -> (i <= j)%nat -> (j <= length children)%nat ->
  start_of scale children i <= start_of scale children j.
Proof.
  revert i j. induction children as [|c rest IH]; intros i j Hp Hij Hj.
  - cbn in Hj. replace i with 0%nat by lia. replace j with 0%nat by lia. lra.
  - inversion Hp as [|x y Hc Hr]; subst x y.
    assert (P : 0 <= declared_length scale c).
    { destruct Hc as [[N L]|[N [L S]]]; [rewrite (dl_straight _ _ N); lra | rewrite (dl_corner _ _ N)].
      apply Rmult_le_pos; lra. }
    destruct j as [|j]; [replace i with 0%nat by lia; lra|]. cbn in Hj.
    destruct i as [|i].
    + rewrite start_of_S. pose proof (IH 0%nat j Hr ltac:(lia) ltac:(lia)) as Q.
      unfold start_of in Q at 1. unfold start_of at 1. cbn in *. lra.
    + rewrite !start_of_S. pose proof (IH i j Hr ltac:(lia) ltac:(lia)). lra.
Qed.

(** Near a point strictly inside of child [i] the motion is that of its segment. *)
Lemma inside_along scale width closed children t i s c :
  Forall (proper scale) children -> Forall (not_huge scale) children ->
  build scale width closed children = Ok t -> inside scale children i s -> nth_error children i = Some c ->
  exists g, flat_unit (g_dir g) /\ g_k g = declared_curvature scale c /\
    locally s (fun x => along (a_segments t) x = segment_at g x).
Proof.
  intros Hp Hh B (Hi & H1 & H2) Hc.
  assert (Hne : children <> []) by (intros ->; cbn in Hi; lia).
  destruct (built _ _ _ _ _ Hne Hp B) as (F & Ln & U & Lk & K & _). specialize (Lk Hh).
  destruct (nth_error (a_segments t) i) as [g|] eqn:Eg.
  2:{ apply nth_error_None in Eg. lia. }
  destruct (K i g Eg) as (c0 & A & Bk & C). rewrite Hc in A. injection A as <-.
  exists g. split; [apply (linked_unit _ Lk); eapply nth_error_In; exact Eg|]. split; [exact Bk|].
  assert (N1 : locally s (fun x => i <> 0%nat -> g_s g < x)).
  { destruct (Nat.eq_dec i 0) as [E|E]; [apply filter_forall; intros x Q; contradiction|].
    eapply filter_imp; [|exact (near_gt _ _ (H1 E))]. cbn. intros x Hx _. rewrite C. exact Hx. }
  assert (N2 : locally s (fun x => S i <> length children -> x < start_of scale children (S i))).
  { destruct (Nat.eq_dec (S i) (length children)) as [E|E]; [apply filter_forall; intros x Q; contradiction|].
    eapply filter_imp; [|exact (near_lt _ _ (H2 E))]. cbn. intros x Hx _. exact Hx. }
  eapply filter_imp; [|exact (filter_and _ _ N1 N2)]. cbn. intros x [X1 X2].
  unfold along. rewrite (find_inside _ Lk i g x Eg); [reflexivity | intros Q; left; now apply X1 |].
  intros g' Eg'. destruct (K (S i) g' Eg') as (c' & A' & _ & C'). rewrite C'. apply X2.
  intros Q. assert (NS : (S i < length children)%nat) by (apply nth_error_Some; congruence). lia.
Qed.

(** ** Closed tracks *)
Lemma lay_closed scale first children : forall p d s, children <> [] -> Forall (proper scale) children ->
  exists l g c Tc To, lay scale true first p d s s children = Ok (l ++ [g], Tc) /\
    lay scale false first p d s s children = Ok (l ++ [g], To) /\ In c children /\ g_s g < To /\
    (n_name c = "straight"%string /\ g_k g = 0 /\ To = g_s g + scale * n_length c /\ 0 < scale * n_length c /\ Tc = g_s g + norm (vsub (g_point g) first) \/
     Tc = To).
Proof.
  induction children as [|c rest IH]; intros p d s Hne Hp; [contradiction|].
  inversion Hp as [|x y Hc Hrest]; subst x y.
  destruct rest as [|c' rest].
  - cbn [lay]. destruct Hc as [[Nm HL]|[Nm [HR Ht]]]; rewrite Nm; cbn [String.eqb Ascii.eqb Bool.eqb].
    + exists [], (MkSegment p d s 0), c, (s + norm (vsub p first)), (s + scale * n_length c).
      split; [reflexivity|]. split; [reflexivity|]. split; [now left|]. split; [cbn; lra|]. left. cbn. intuition.
    + exists [], (MkSegment p d s (corner_curvature scale c)), c, (s + scale * n_radius c * n_sweep c), (s + scale * n_radius c * n_sweep c).
      split; [reflexivity|]. split; [reflexivity|]. split; [now left|]. split; [cbn; nra|]. now right.
  - rewrite !lay_cons. destruct Hc as [[Nm HL]|[Nm [HR Ht]]]; rewrite Nm; cbn [String.eqb Ascii.eqb Bool.eqb]; cbv zeta.
    + edestruct (IH (vadd p (vscale (scale * n_length c) d)) d (s + scale * n_length c)) as (l & g & c0 & Tc & To & E1 & E2 & I & G & R0);
        [discriminate | exact Hrest |].
      rewrite E1, E2. cbn [bind fst snd]. exists (MkSegment p d s 0 :: l), g, c0, Tc, To.
      split; [reflexivity|]. split; [reflexivity|]. split; [now right|]. now split.
    + match goal with |- context [bind (lay scale true first ?a ?b ?e ?f ?g) _] =>
        edestruct (IH a b e) as (l & g0 & c0 & Tc & To & E1 & E2 & I & G & R0); [discriminate | exact Hrest |] end.
      rewrite E1, E2. cbn [bind fst snd]. exists (MkSegment p d s (corner_curvature scale c) :: l), g0, c0, Tc, To.
      split; [reflexivity|]. split; [reflexivity|]. split; [now right|]. now split.
Qed.

Lemma norm_scale_unit d L : flat_unit d -> 0 < L -> norm (vscale L d) = L.
Proof.
  intros [H Hz] HL. unfold norm, dot, vscale; cbn. rewrite Hz.
  replace (L * vx d * (L * vx d) + L * vy d * (L * vy d) + L * 0 * (L * 0)) with (Rsqr L).
  - apply sqrt_Rsqr. lra.
  - unfold Rsqr. transitivity (L * L * (vx d * vx d + vy d * vy d)); [rewrite H; ring | ring].
Qed.

Lemma norm_opp a : norm (vopp a) = norm a.
Proof. unfold norm. f_equal. unfold dot, vopp; cbn. ring. Qed.

Lemma closed_closes scale width children tc to : children <> [] -> Forall (proper scale) children -> Forall (not_huge scale) children ->
  build scale width true children = Ok tc -> build scale width false children = Ok to ->
  a_segments tc = a_segments to /\
  (m_r (along (a_segments to) (a_total to)) = vzero -> a_total tc = a_total to).
Proof.
  intros Hne Hp Hh. unfold build.
  destruct (lay_closed scale vzero children vzero (V 1 0 0) 0 Hne Hp) as (l & g & c & Tc & To & E1 & E2 & I & G & D).
  destruct (lay_spec scale false vzero children vzero (V 1 0 0) 0 0 Hne Hp start_unit) as (l' & T' & E' & _ & _ & U & Lk & _).
  rewrite E2 in E'. injection E' as <- <-. specialize (Lk Hh).
  rewrite E1, E2. cbn [bind fst snd]. intros [= <-] [= <-]. cbn [a_segments a_total].
  split; [reflexivity|]. intros Hz.
  destruct D as [(Nm & K0 & HTo & HL & HTc)|D]; [|exact D].
  assert (Fn : find_segment (l ++ [g]) To = Some g).
  { apply (find_inside _ Lk (length l)).
    - rewrite nth_error_app2 by lia. now rewrite Nat.sub_diag.
    - intros _. lra.
    - intros g'. rewrite nth_error_app2 by lia. replace (S (length l) - length l)%nat with 1%nat by lia. discriminate. }
  unfold along in Hz. rewrite Fn in Hz.
  rewrite segment_straight in Hz by (rewrite K0, Rabs_R0; apply ten10). cbn [line m_r] in Hz.
  assert (Ud : flat_unit (g_dir g)) by (eapply Forall_forall in U; [exact U | apply in_or_app; right; now left]).
  rewrite HTc, HTo. f_equal.
  replace (vsub (g_point g) vzero) with (vopp (vscale (scale * n_length c) (g_dir g))).
  - rewrite norm_opp. apply norm_scale_unit; assumption.
  - replace (To - g_s g) with (scale * n_length c) in Hz by lra.
    apply vec_ext; [apply (f_equal vx) in Hz | apply (f_equal vy) in Hz | apply (f_equal vz) in Hz]; cbn in *; lra.
Qed.
