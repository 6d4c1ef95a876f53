(** Lemmas on tracks made of arcs. *)
From Coq Require Import Reals String Lra Lia.
From Coquelicot Require Import Coquelicot.
From Coq Require Import List.
From Verif Require Import M_Vec M_Controls M_Arcs S_Road S_Arcs.
Import ListNotations.
Local Open Scope R_scope.

Lemma vec_ext a b : vx a = vx b -> vy a = vy b -> vz a = vz b -> a = b.
Proof. destruct a as [ax ay az], b as [bx byy bz]; cbn; intros -> -> ->; reflexivity. Qed.

Definition flat_unit (d : vec) : Prop := vx d * vx d + vy d * vy d = 1 /\ vz d = 0.

Lemma norm_turned_div d k : flat_unit d -> k <> 0 -> norm (vdiv (turned d) k) = / Rabs k.
Proof.
  intros [H H'] Hk. unfold vdiv, norm, dot, vscale, turned; cbn.
  assert (E : / k * - vy d * (/ k * - vy d) + / k * vx d * (/ k * vx d) + / k * 0 * (/ k * 0) = Rsqr (/ k)).
  { unfold Rsqr. transitivity (/ k * / k * (vx d * vx d + vy d * vy d)); [ring | rewrite H; ring]. }
  rewrite E.
  rewrite sqrt_Rsqr_abs. apply Rabs_inv.
Qed.

(** What a segment reports, written with the signed angle. *)
Definition curve (g : segment) (s : R) : motion :=
  let phi := g_k g * (s - g_s g) in
  let d := g_dir g in let n := turned d in
  MkMotion (vadd (g_point g) (vadd (vscale (sin phi / g_k g) d) (vscale ((1 - cos phi) / g_k g) n)))
           (vadd (vscale (cos phi) d) (vscale (sin phi) n))
           (vscale (g_k g) (vsub (vscale (cos phi) n) (vscale (sin phi) d)))
           (vopp (vscale (g_k g) (vscale (g_k g) (vadd (vscale (cos phi) d) (vscale (sin phi) n))))).
Definition line (g : segment) (s : R) : motion :=
  MkMotion (vadd (g_point g) (vscale (s - g_s g) (g_dir g))) (g_dir g) vzero vzero.

Lemma segment_straight g s : Rabs (g_k g) < 1 / 10 ^ 10 -> segment_at g s = line g s.
Proof. intros H. unfold segment_at. destruct (Rlt_dec _ _) as [_|N]; [reflexivity | contradiction]. Qed.

Lemma ten10 : 0 < 1 / 10 ^ 10. Proof. apply Rdiv_lt_0_compat; [lra | apply pow_lt; lra]. Qed.

Lemma bent_nonzero k : ~ Rabs k < 1 / 10 ^ 10 -> k <> 0.
Proof. intros H ->. apply H. rewrite Rabs_R0. exact ten10. Qed.

Lemma segment_bent g s : flat_unit (g_dir g) -> ~ Rabs (g_k g) < 1 / 10 ^ 10 -> segment_at g s = curve g s.
Proof.
  intros Hd H. pose proof (bent_nonzero _ H) as Hk. unfold segment_at.
  destruct (Rlt_dec _ _) as [N|_]; [contradiction|].
  assert (Hk' : Rabs (g_k g) <> 0) by now apply Rabs_no_R0.
  rewrite (norm_turned_div _ _ Hd Hk). destruct Hd as [Hu Hz].
  assert (C : cos ((s - g_s g) * Rabs (g_k g)) = cos (g_k g * (s - g_s g))).
  { unfold Rabs. destruct (Rcase_abs (g_k g)).
    - replace ((s - g_s g) * - g_k g) with (- (g_k g * (s - g_s g))) by ring. apply cos_neg.
    - f_equal. ring. }
  assert (Sn : sin ((s - g_s g) * Rabs (g_k g)) / Rabs (g_k g) = sin (g_k g * (s - g_s g)) / g_k g).
  { unfold Rabs. destruct (Rcase_abs (g_k g)).
    - replace ((s - g_s g) * - g_k g) with (- (g_k g * (s - g_s g))) by ring. rewrite sin_neg. field. exact Hk.
    - f_equal. f_equal. ring. }
  assert (Sn' : sin ((s - g_s g) * Rabs (g_k g)) = sin (g_k g * (s - g_s g)) / g_k g * Rabs (g_k g)).
  { rewrite <- Sn. field. exact Hk'. }
  unfold curve.
  assert (E : vsub (vscale (cos ((s - g_s g) * Rabs (g_k g))) (g_dir g))
                (vscale (sin ((s - g_s g) * Rabs (g_k g)))
                   (vdiv (vopp (vdiv (turned (g_dir g)) (g_k g))) (/ Rabs (g_k g))))
            = vadd (vscale (cos (g_k g * (s - g_s g))) (g_dir g))
                (vscale (sin (g_k g * (s - g_s g))) (turned (g_dir g)))).
  { rewrite C. set (sg := sin (g_k g * (s - g_s g))) in *.
    assert (A2 : Rabs (g_k g) * Rabs (g_k g) = g_k g * g_k g) by (rewrite <- Rabs_mult; apply Rabs_right; nra).
    rewrite Sn'. unfold vdiv, vsub, vadd, vscale, vopp, turned; cbn [vx vy vz].
    rewrite Rinv_inv.
    assert (Q : sg / g_k g * Rabs (g_k g) * (Rabs (g_k g) * / g_k g) = sg).
    { transitivity (sg * (Rabs (g_k g) * Rabs (g_k g)) / (g_k g * g_k g)); [field; exact Hk | rewrite A2; field; exact Hk]. }
    f_equal.
    - transitivity (cos (g_k g * (s - g_s g)) * vx (g_dir g) + (sg / g_k g * Rabs (g_k g) * (Rabs (g_k g) * / g_k g)) * - vy (g_dir g)); [unfold Rdiv; ring | now rewrite Q].
    - transitivity (cos (g_k g * (s - g_s g)) * vy (g_dir g) + (sg / g_k g * Rabs (g_k g) * (Rabs (g_k g) * / g_k g)) * vx (g_dir g)); [unfold Rdiv; ring | now rewrite Q].
    - ring. }
  rewrite E. f_equal.
  - rewrite C, Sn'. unfold vdiv, vsub, vadd, vscale, vopp, turned; cbn [vx vy vz]. rewrite Rinv_inv.
    f_equal; field; auto.
  - unfold vsub, vadd, vscale, turned; cbn [vx vy vz]. rewrite Hz. f_equal; ring.
Qed.

(** Derivatives within a segment. *)
Lemma line_derive g s : vderive (fun x => m_r (line g x)) s (m_dr (line g s)).
Proof. split; [|split]; cbn; auto_derive; trivial; ring. Qed.
Lemma curve_derive g s : g_k g <> 0 -> vderive (fun x => m_r (curve g x)) s (m_dr (curve g s)).
Proof. intros Hk. split; [|split]; cbn; auto_derive; trivial; unfold Rminus; field; exact Hk. Qed.
Lemma line_derive2 g s : vderive (fun x => m_dr (line g x)) s (m_d2r (line g s)).
Proof. split; [|split]; cbn; auto_derive; trivial. Qed.
Lemma curve_derive2 g s : vderive (fun x => m_dr (curve g x)) s (m_d2r (curve g s)).
Proof. split; [|split]; cbn; auto_derive; trivial; unfold Rminus; ring. Qed.
Lemma line_derive3 g s : vderive (fun x => m_d2r (line g x)) s (m_d3r (line g s)).
Proof. split; [|split]; cbn; auto_derive; trivial. Qed.
Lemma curve_derive3 g s : vderive (fun x => m_d2r (curve g x)) s (m_d3r (curve g s)).
Proof. split; [|split]; cbn; auto_derive; trivial; unfold Rminus; ring. Qed.

Section Segment.
Variables (g : segment).
Hypothesis Hd : flat_unit (g_dir g).

Lemma segment_derive s : vderive (fun x => m_r (segment_at g x)) s (m_dr (segment_at g s)).
Proof using Hd.
  destruct (Rlt_dec (Rabs (g_k g)) (1 / 10 ^ 10)) as [H|H].
  - rewrite segment_straight by exact H. destruct (line_derive g s) as (A & B & C).
    split; [|split]; (eapply is_derive_ext; [intros t; rewrite (segment_straight g t H); reflexivity | assumption]).
  - rewrite segment_bent by assumption. destruct (curve_derive g s (bent_nonzero _ H)) as (A & B & C).
    split; [|split]; (eapply is_derive_ext; [intros t; rewrite (segment_bent g t Hd H); reflexivity | assumption]).
Qed.
Lemma segment_derive2 s : vderive (fun x => m_dr (segment_at g x)) s (m_d2r (segment_at g s)).
Proof using Hd.
  destruct (Rlt_dec (Rabs (g_k g)) (1 / 10 ^ 10)) as [H|H].
  - rewrite segment_straight by exact H. destruct (line_derive2 g s) as (A & B & C).
    split; [|split]; (eapply is_derive_ext; [intros t; rewrite (segment_straight g t H); reflexivity | assumption]).
  - rewrite segment_bent by assumption. destruct (curve_derive2 g s) as (A & B & C).
    split; [|split]; (eapply is_derive_ext; [intros t; rewrite (segment_bent g t Hd H); reflexivity | assumption]).
Qed.
Lemma segment_derive3 s : vderive (fun x => m_d2r (segment_at g x)) s (m_d3r (segment_at g s)).
Proof using Hd.
  destruct (Rlt_dec (Rabs (g_k g)) (1 / 10 ^ 10)) as [H|H].
  - rewrite segment_straight by exact H. destruct (line_derive3 g s) as (A & B & C).
    split; [|split]; (eapply is_derive_ext; [intros t; rewrite (segment_straight g t H); reflexivity | assumption]).
  - rewrite segment_bent by assumption. destruct (curve_derive3 g s) as (A & B & C).
    split; [|split]; (eapply is_derive_ext; [intros t; rewrite (segment_bent g t Hd H); reflexivity | assumption]).
Qed.

Lemma sc t : sin t * sin t + cos t * cos t = 1.
Proof. exact (sin2_cos2 t). Qed.

Lemma segment_unit s : flat_unit (m_dr (segment_at g s)).
Proof using Hd.
  destruct (Rlt_dec (Rabs (g_k g)) (1 / 10 ^ 10)) as [H|H].
  - rewrite segment_straight by exact H. exact Hd.
  - rewrite segment_bent by assumption. destruct Hd as [Hu Hz].
    unfold curve, flat_unit; cbn [m_dr]. set (phi := g_k g * (s - g_s g)).
    unfold vadd, vscale, turned; cbn [vx vy vz]. pose proof (sc phi) as P. split; [|rewrite Hz; ring].
    transitivity ((sin phi * sin phi + cos phi * cos phi) * (vx (g_dir g) * vx (g_dir g) + vy (g_dir g) * vy (g_dir g))); [ring|].
    rewrite P, Hu. ring.
Qed.

(** The acceleration is the curvature times the normal (zero on segments taken as
    straight). *)
Lemma segment_curvature s : m_d2r (segment_at g s) =
  vscale (if Rlt_dec (Rabs (g_k g)) (1 / 10 ^ 10) then 0 else g_k g) (turned (m_dr (segment_at g s))).
Proof using Hd.
  unfold segment_at. destruct (Rlt_dec _ _); cbn; [unfold vscale, vzero; cbn; f_equal; ring | reflexivity].
Qed.

Lemma segment_starts : m_r (segment_at g (g_s g)) = g_point g /\ m_dr (segment_at g (g_s g)) = g_dir g.
Proof using Hd.
  destruct (Rlt_dec (Rabs (g_k g)) (1 / 10 ^ 10)) as [H|H].
  - rewrite segment_straight by exact H. cbn. split; [|reflexivity]. apply vec_ext; cbn; ring.
  - rewrite segment_bent by assumption. destruct Hd as [Hu Hz]. cbn.
    replace (g_k g * (g_s g - g_s g)) with 0 by ring. rewrite sin_0, cos_0.
    split; apply vec_ext; cbn; unfold Rdiv; try rewrite Hz; ring.
Qed.
End Segment.

(** ** The layout *)
Inductive linked : list segment -> Prop :=
| linked_one g : flat_unit (g_dir g) -> linked [g]
| linked_cons g g' l : flat_unit (g_dir g) -> g_s g < g_s g' ->
    m_r (segment_at g (g_s g')) = g_point g' -> m_dr (segment_at g (g_s g')) = g_dir g' ->
    linked (g' :: l) -> linked (g :: g' :: l).

Lemma linked_unit l : linked l -> forall g, In g l -> flat_unit (g_dir g).
Proof. induction 1; intros h; cbn; intros [<-|K]; auto; contradiction. Qed.

Definition fits (l : list segment) (p d : vec) (s : R) : Prop :=
  match l with [] => False | g :: _ => g_point g = p /\ g_dir g = d /\ g_s g = s end.

Lemma flat_unit_norm d : flat_unit d -> norm d = 1.
Proof. intros [H Hz]. unfold norm, dot. rewrite Hz, H, Rmult_0_l, Rplus_0_r. apply sqrt_1. Qed.

Lemma corner_not_small scale c : 0 < scale * n_radius c -> scale * n_radius c <= 10 ^ 10 ->
  ~ Rabs (corner_curvature scale c) < 1 / 10 ^ 10.
Proof.
  intros H H'. unfold corner_curvature.
  assert (P : 0 < 1 / (scale * n_radius c)) by (apply Rdiv_lt_0_compat; lra).
  assert (E : Rabs (if String.eqb (n_direction c) "left" then - (1 / (scale * n_radius c)) else 1 / (scale * n_radius c))
              = 1 / (scale * n_radius c)).
  { destruct (String.eqb _ _); [rewrite Rabs_Ropp|]; apply Rabs_right; lra. }
  rewrite E. intros K. revert K. apply Rle_not_lt. unfold Rdiv. rewrite !Rmult_1_l. apply Rinv_le_contravar; assumption.
Qed.

Lemma corner_abs scale c : 0 < scale * n_radius c -> Rabs (corner_curvature scale c) = / (scale * n_radius c).
Proof.
  intros H. unfold corner_curvature.
  assert (P : 0 < 1 / (scale * n_radius c)) by (apply Rdiv_lt_0_compat; lra).
  transitivity (1 / (scale * n_radius c)); [|unfold Rdiv; ring].
  destruct (String.eqb _ _); [rewrite Rabs_Ropp|]; apply Rabs_right; lra.
Qed.

(** The end computed by the constructor is what the evaluation reports there. *)
Lemma corner_end scale c p d s :
  flat_unit d -> 0 < scale * n_radius c -> scale * n_radius c <= 10 ^ 10 ->
  let k := corner_curvature scale c in
  let cts := vdiv (vopp (turned d)) k in
  let d1 := vdiv cts (norm cts) in
  let d2 := vdiv d (norm d) in
  let theta := n_sweep c in
  let m := segment_at (MkSegment p d s k) (s + scale * n_radius c * theta) in
  m_r m = vadd (vsub p cts) (vscale (scale * n_radius c) (vadd (vscale (cos theta) d1) (vscale (sin theta) d2))) /\
  m_dr m = vsub (vscale (cos theta) d2) (vscale (sin theta) d1).
Proof.
  intros Hd H H' k cts d1 d2 theta m. subst m.
  pose proof (corner_not_small _ _ H H') as B. pose proof (bent_nonzero _ B) as Hk. fold k in B, Hk.
  assert (T : (s + scale * n_radius c * theta - s) * Rabs k = theta).
  { unfold k. rewrite (corner_abs _ _ H). field. split; intros E; rewrite E in H; lra. }
  assert (N : norm cts = norm (vdiv (turned d) k)).
  { unfold norm. f_equal. unfold vdiv, cts, dot, vopp, vscale, turned; cbn. ring. }
  assert (D1 : d1 = vdiv (vopp (vdiv (turned d) k)) (norm (vdiv (turned d) k))).
  { unfold d1. rewrite N. unfold vdiv, cts, vopp, vscale, turned; cbn. f_equal; ring. }
  assert (D2 : d2 = d).
  { unfold d2. rewrite (flat_unit_norm _ Hd). unfold vdiv, vscale. apply vec_ext; cbn; rewrite Rinv_1; ring. }
  assert (Rk : / Rabs k = scale * n_radius c).
  { unfold k. rewrite (corner_abs _ _ H). apply Rinv_inv. }
  unfold segment_at. cbn [g_k g_dir g_point g_s].
  destruct (Rlt_dec _ _) as [K|_]; [contradiction|]. cbn [m_r m_dr].
  rewrite T, <- D1, D2. split; [|reflexivity].
  unfold vdiv at 2. rewrite Rk.
  unfold vdiv, cts, vopp, vscale, turned, vadd, vsub; cbn. f_equal; ring.
Qed.

(** The loop never throws on proper children, and what it lays is linked. *)
Lemma lay_cons scale closed first p d s total c c' rest :
  lay scale closed first p d s total (c :: c' :: rest) =
      (if String.eqb (n_name c) "straight" then
        let L := scale * n_length c in
        bind (lay scale closed first (vadd p (vscale L d)) d (s + L) (total + L) (c' :: rest)) (fun r =>
        Ok (MkSegment p d s 0 :: fst r, snd r))
      else if String.eqb (n_name c) "corner" then
        let rad := scale * n_radius c in
        let theta := n_sweep c in
        let k := corner_curvature scale c in
        let n := turned d in
        let center_to_start := vdiv (vopp n) k in
        let center := vsub p center_to_start in
        let d1 := vdiv center_to_start (norm center_to_start) in
        let d2 := vdiv d (norm d) in
        let center_to_end := vadd (vscale (cos theta) d1) (vscale (sin theta) d2) in
        bind (lay scale closed first (vadd center (vscale rad center_to_end))
                  (vsub (vscale (cos theta) d2) (vscale (sin theta) d1))
                  (s + rad * theta) (total + rad * theta) (c' :: rest)) (fun r =>
        Ok (MkSegment p d s k :: fst r, snd r))
      else Throw).
Proof. reflexivity. Qed.

Lemma straight_end p d s L : let m := segment_at (MkSegment p d s 0) (s + L) in
  m_r m = vadd p (vscale L d) /\ m_dr m = d.
Proof.
  cbn. rewrite segment_straight by (cbn; rewrite Rabs_R0; apply ten10). cbn. split; [|reflexivity].
  apply vec_ext; cbn; ring.
Qed.

(** Without any condition on sizes: directions stay horizontal and of unit length. *)
Lemma corner_dir_unit d k theta : flat_unit d -> k <> 0 ->
  flat_unit (vsub (vscale (cos theta) (vdiv d (norm d))) (vscale (sin theta) (vdiv (vdiv (vopp (turned d)) k) (norm (vdiv (vopp (turned d)) k))))).
Proof.
  intros Hd Hk.
  assert (N : norm (vdiv (vopp (turned d)) k) = norm (vdiv (turned d) k)).
  { unfold norm. f_equal. unfold vdiv, dot, vopp, vscale, turned; cbn. ring. }
  rewrite N, (norm_turned_div _ _ Hd Hk), (flat_unit_norm _ Hd). destruct Hd as [Hu Hz].
  unfold vdiv. rewrite Rinv_inv, Rinv_1. unfold flat_unit, vsub, vscale, vopp, turned; cbn.
  assert (A2 : Rabs k * Rabs k = k * k) by (rewrite <- Rabs_mult; apply Rabs_right; nra).
  split; [|rewrite Hz; ring].
  set (e := Rabs k * / k).
  assert (E : e * e = 1) by (unfold e; transitivity (Rabs k * Rabs k / (k * k)); [field; exact Hk | rewrite A2; field; exact Hk]).
  pose proof (sc theta) as P.
  transitivity (cos theta * cos theta * (vx d * vx d + vy d * vy d) + sin theta * sin theta * (e * e) * (vx d * vx d + vy d * vy d)).
  - unfold e. ring.
  - rewrite E, Hu. lra.
Qed.

Lemma corner_nonzero scale c : 0 < scale * n_radius c -> corner_curvature scale c <> 0.
Proof.
  intros H E. pose proof (corner_abs _ _ H) as A. rewrite E, Rabs_R0 in A.
  assert (0 < / (scale * n_radius c)) by now apply Rinv_0_lt_compat. lra.
Qed.

Lemma name_straight c : String.eqb (n_name c) "straight" = true <-> n_name c = "straight"%string.
Proof. apply String.eqb_eq. Qed.

Lemma dl_straight scale c : n_name c = "straight"%string -> declared_length scale c = scale * n_length c.
Proof. intros H. unfold declared_length. now rewrite H. Qed.
Lemma dl_corner scale c : n_name c = "corner"%string -> declared_length scale c = scale * n_radius c * n_sweep c.
Proof. intros H. unfold declared_length. now rewrite H. Qed.
Lemma start_of_S scale c cs i : start_of scale (c :: cs) (S i) = declared_length scale c + start_of scale cs i.
Proof. reflexivity. Qed.
Lemma sum_cons scale c cs : fold_right Rplus 0 (map (declared_length scale) (c :: cs)) =
  declared_length scale c + fold_right Rplus 0 (map (declared_length scale) cs).
Proof. reflexivity. Qed.

Lemma lay_spec scale closed first children : forall p d s total, children <> [] ->
  Forall (proper scale) children -> flat_unit d ->
  exists l T, lay scale closed first p d s total children = Ok (l, T) /\ fits l p d s /\
    length l = length children /\ Forall (fun g => flat_unit (g_dir g)) l /\
    (Forall (not_huge scale) children -> linked l) /\
    (forall i g, nth_error l i = Some g -> exists c, nth_error children i = Some c /\ g_k g = declared_curvature scale c /\
       g_s g = s + start_of scale children i) /\
    (closed = false -> T = total + fold_right Rplus 0 (map (declared_length scale) children)).
Proof.
  induction children as [|c rest IH]; intros p d s total Hne Hp Hd; [contradiction|].
  inversion Hp as [|x y Hc Hrest]; subst x y.
  destruct rest as [|c' rest].
  - (* last *)
    cbn [lay]. destruct Hc as [[Nm HL]|[Nm [HR Ht]]]; rewrite Nm; cbn [String.eqb Ascii.eqb Bool.eqb].
    + destruct closed.
      * exists [MkSegment p d s 0], (total + norm (vsub p first)). split; [reflexivity|]. split; [now cbn|]. split; [reflexivity|].
        split; [repeat constructor; apply Hd|]. split; [intros _; now constructor|].
        split; [|discriminate].
        intros [|i] g; cbn; [|destruct i; discriminate]. intros [= <-]. exists c. split; [reflexivity|].
        unfold declared_curvature. rewrite Nm. cbn. split; [reflexivity|]. unfold start_of; cbn; ring.
      * exists [MkSegment p d s 0], (total + scale * n_length c). split; [reflexivity|]. split; [now cbn|]. split; [reflexivity|].
        split; [repeat constructor; apply Hd|]. split; [intros _; now constructor|].
        split; [|intros _; cbn; unfold declared_length; rewrite Nm; cbn; ring].
        intros [|i] g; cbn; [|destruct i; discriminate]. intros [= <-]. exists c. split; [reflexivity|].
        unfold declared_curvature. rewrite Nm. cbn. split; [reflexivity|]. unfold start_of; cbn; ring.
    + exists [MkSegment p d s (corner_curvature scale c)], (total + scale * n_radius c * n_sweep c).
      split; [reflexivity|]. split; [now cbn|]. split; [reflexivity|].
      split; [repeat constructor; apply Hd|]. split; [intros _; now constructor|].
      split; [|intros _; cbn; unfold declared_length; rewrite Nm; cbn; ring].
      intros [|i] g; cbn; [|destruct i; discriminate]. intros [= <-]. exists c. split; [reflexivity|].
      unfold declared_curvature. rewrite Nm. cbn. split; [reflexivity|]. unfold start_of; cbn; ring.
  - rewrite lay_cons. destruct Hc as [[Nm HL]|[Nm [HR Ht]]]; rewrite Nm; cbn [String.eqb Ascii.eqb Bool.eqb]; cbv zeta.
    + destruct (IH (vadd p (vscale (scale * n_length c) d)) d (s + scale * n_length c) (total + scale * n_length c)) as (l & T & El & F & Ln & U & Lk & K & Tt);
        [discriminate | exact Hrest | exact Hd |].
      rewrite El. cbn [bind fst snd]. eexists _, T. split; [reflexivity|]. split; [now cbn|].
      split; [cbn; now rewrite Ln|]. split; [now constructor|].
      split.
      * intros Hh. inversion Hh as [|x y _ Hh']; subst x y. specialize (Lk Hh').
        destruct l as [|g l]; [destruct F|]. destruct F as (F1 & F2 & F3). 
        destruct (straight_end p d s (scale * n_length c)) as [E1 E2].
        constructor; [exact Hd | cbn; rewrite F3; lra | | | exact Lk]; rewrite F3; [now rewrite F1 | now rewrite F2].
      * split.
        -- intros [|i] g; cbn [nth_error].
           ++ intros [= <-]. exists c. split; [reflexivity|]. unfold declared_curvature. rewrite Nm. cbn. split; [reflexivity|]. unfold start_of; cbn; ring.
           ++ intros Hi. destruct (K i g Hi) as (c0 & A & B & C). exists c0. split; [exact A|]. split; [exact B|].
              rewrite C, start_of_S, (dl_straight _ _ Nm). ring.
        -- intros Hcl. rewrite (Tt Hcl), (sum_cons _ c (c' :: rest)), (dl_straight _ _ Nm). ring.
    + pose proof (corner_dir_unit d (corner_curvature scale c) (n_sweep c) Hd (corner_nonzero _ _ HR)) as Hd'.
      destruct (IH (vadd (vsub p (vdiv (vopp (turned d)) (corner_curvature scale c)))
               (vscale (scale * n_radius c)
                  (vadd (vscale (cos (n_sweep c)) (vdiv (vdiv (vopp (turned d)) (corner_curvature scale c)) (norm (vdiv (vopp (turned d)) (corner_curvature scale c)))))
                     (vscale (sin (n_sweep c)) (vdiv d (norm d))))))
            (vsub (vscale (cos (n_sweep c)) (vdiv d (norm d)))
               (vscale (sin (n_sweep c)) (vdiv (vdiv (vopp (turned d)) (corner_curvature scale c)) (norm (vdiv (vopp (turned d)) (corner_curvature scale c))))))
            (s + scale * n_radius c * n_sweep c) (total + scale * n_radius c * n_sweep c)) as (l & T & El & F & Ln & U & Lk & K & Tt);
        [discriminate | exact Hrest | exact Hd' |].
      rewrite El. cbn [bind fst snd]. eexists _, T. split; [reflexivity|]. split; [now cbn|].
      split; [cbn; now rewrite Ln|]. split; [now constructor|].
      split.
      * intros Hh. inversion Hh as [|x y Hc Hh']; subst x y. specialize (Lk Hh'). specialize (Hc Nm).
        destruct l as [|g l]; [destruct F|]. destruct F as (F1 & F2 & F3).
        destruct (corner_end scale c p d s Hd HR Hc) as [E1 E2].
        constructor; [exact Hd | cbn; rewrite F3; nra | | | exact Lk]; rewrite F3; [now rewrite F1 | now rewrite F2].
      * split.
        -- intros [|i] g; cbn [nth_error].
           ++ intros [= <-]. exists c. split; [reflexivity|]. unfold declared_curvature. rewrite Nm. cbn. split; [reflexivity|]. unfold start_of; cbn; ring.
           ++ intros Hi. destruct (K i g Hi) as (c0 & A & B & C). exists c0. split; [exact A|]. split; [exact B|].
              rewrite C, start_of_S, (dl_corner _ _ Nm). ring.
        -- intros Hcl. rewrite (Tt Hcl), (sum_cons _ c (c' :: rest)), (dl_corner _ _ Nm). ring.
Qed.
