(** Lemmas on the road frame. *)
From Coq Require Import Reals Lra.
From Coquelicot Require Import Coquelicot.
From Verif Require Import M_Vec M_Road S_Road.
Local Open Scope R_scope.

Lemma cs t : cos t * cos t = 1 - sin t * sin t.
Proof. pose proof (sin2_cos2 t) as H. unfold Rsqr in H. lra. Qed.

Lemma vec_eq a b : vx a = vx b -> vy a = vy b -> vz a = vz b -> a = b.
Proof. destruct a, b; cbn; intros; subst; reflexivity. Qed.

Lemma frame_right_handed e : right_handed (tangent e) (normal e) (binormal e).
Proof.
  destruct e as [th mu ph]. unfold right_handed, dot, cross, tangent, normal, binormal. cbn [yaw pitch roll vx vy vz].
  pose proof (cs th); pose proof (cs mu); pose proof (cs ph).
  repeat split; try ring [H H0 H1].
  apply vec_eq; cbn [vx vy vz]; ring [H H0 H1].
Qed.

Lemma mapply_mmul m n a : mapply (mmul m n) a = mapply m (mapply n a).
Proof.
  destruct m as [[m1 m2 m3] [m4 m5 m6] [m7 m8 m9]], n as [[n1 n2 n3] [n4 n5 n6] [n7 n8 n9]], a as [a1 a2 a3]. unfold mmul, mapply, vadd, vscale. cbn [vx vy vz col1 col2 col3]. f_equal; ring.
Qed.
Lemma rot_z_apply t a : mapply (rot_z t) a = V (cos t * vx a - sin t * vy a) (sin t * vx a + cos t * vy a) (vz a).
Proof. destruct a as [a1 a2 a3]. unfold mapply, rot_z, vadd, vscale. cbn [vx vy vz col1 col2 col3]. f_equal; ring. Qed.
Lemma rot_y_apply t a : mapply (rot_y t) a = V (cos t * vx a + sin t * vz a) (vy a) (- sin t * vx a + cos t * vz a).
Proof. destruct a as [a1 a2 a3]. unfold mapply, rot_y, vadd, vscale. cbn [vx vy vz col1 col2 col3]. f_equal; ring. Qed.
Lemma rot_x_apply t a : mapply (rot_x t) a = V (vx a) (cos t * vy a - sin t * vz a) (sin t * vy a + cos t * vz a).
Proof. destruct a as [a1 a2 a3]. unfold mapply, rot_x, vadd, vscale. cbn [vx vy vz col1 col2 col3]. f_equal; ring. Qed.

Lemma mapply_frame e alpha a : 
  mapply (frame_matrix e alpha) a =
  vadd (vadd (vscale (vx a * cos alpha - vy a * sin alpha) (tangent e)) (vscale (vx a * sin alpha + vy a * cos alpha) (normal e))) (vscale (vz a) (binormal e)).
Proof.
  unfold frame_matrix. rewrite !mapply_mmul, !rot_z_apply, rot_x_apply, rot_y_apply. cbn [vx vy vz].
  unfold tangent, normal, binormal, vadd, vscale. cbn [vx vy vz]. f_equal; ring.
Qed.

Lemma frame_cols e alpha : frame_matrix e alpha =
  M3 (vadd (vscale (cos alpha) (tangent e)) (vscale (sin alpha) (normal e)))
     (vadd (vscale (- sin alpha) (tangent e)) (vscale (cos alpha) (normal e))) (binormal e).
Proof.
  assert (C1 : forall m, col1 m = mapply m (V 1 0 0)) by (intros [[m1 m2 m3] [m4 m5 m6] [m7 m8 m9]]; unfold mapply, vadd, vscale; cbn; f_equal; ring).
  assert (C2 : forall m, col2 m = mapply m (V 0 1 0)) by (intros [[m1 m2 m3] [m4 m5 m6] [m7 m8 m9]]; unfold mapply, vadd, vscale; cbn; f_equal; ring).
  assert (C3 : forall m, col3 m = mapply m (V 0 0 1)) by (intros [[m1 m2 m3] [m4 m5 m6] [m7 m8 m9]]; unfold mapply, vadd, vscale; cbn; f_equal; ring).
  assert (E : forall m, m = M3 (col1 m) (col2 m) (col3 m)) by (intros []; reflexivity).
  rewrite (E (frame_matrix e alpha)), C1, C2, C3, !mapply_frame. cbn [vx vy vz].
  destruct (tangent e) as [t1 t2 t3], (normal e) as [n1 n2 n3], (binormal e) as [b1 b2 b3]. unfold vadd, vscale. cbn [vx vy vz]. f_equal; f_equal; ring.
Qed.

Lemma frame_matrix_rotation e alpha : rotation (frame_matrix e alpha).
Proof.
  rewrite frame_cols. unfold rotation. cbn [col1 col2 col3]. destruct (frame_right_handed e) as (Htt & Hnn & Hbb & Htn & Hnb & Htb & Hc).
  revert Htt Hnn Hbb Htn Hnb Htb Hc. destruct (tangent e) as [t1 t2 t3], (normal e) as [n1 n2 n3], (binormal e) as [b1 b2 b3].
  unfold right_handed, dot, cross, vadd, vscale. cbn [vx vy vz]. intros Htt Hnn Hbb Htn Hnb Htb [= Hc1 Hc2 Hc3].
  pose proof (cs alpha) as A. generalize dependent (cos alpha). generalize (sin alpha). intros sa ca A.
  split; [|split; [|split; [exact Hbb|split; [|split; [|split]]]]].
  - transitivity (ca * ca * (t1 * t1 + t2 * t2 + t3 * t3) + sa * sa * (n1 * n1 + n2 * n2 + n3 * n3) + 2 * ca * sa * (t1 * n1 + t2 * n2 + t3 * n3)); [ring|].
    rewrite Htt, Hnn, Htn, A. ring.
  - transitivity (sa * sa * (t1 * t1 + t2 * t2 + t3 * t3) + ca * ca * (n1 * n1 + n2 * n2 + n3 * n3) - 2 * ca * sa * (t1 * n1 + t2 * n2 + t3 * n3)); [ring|].
    rewrite Htt, Hnn, Htn, A. ring.
  - transitivity (ca * sa * ((n1 * n1 + n2 * n2 + n3 * n3) - (t1 * t1 + t2 * t2 + t3 * t3)) + (ca * ca - sa * sa) * (t1 * n1 + t2 * n2 + t3 * n3)); [ring|].
    rewrite Htt, Hnn, Htn. ring.
  - transitivity (- sa * (t1 * b1 + t2 * b2 + t3 * b3) + ca * (n1 * b1 + n2 * b2 + n3 * b3)); [ring|]. rewrite Htb, Hnb. ring.
  - transitivity (ca * (t1 * b1 + t2 * b2 + t3 * b3) + sa * (n1 * b1 + n2 * b2 + n3 * b3)); [ring|]. rewrite Htb, Hnb. ring.
  - f_equal; [rewrite <- Hc1|rewrite <- Hc2|rewrite <- Hc3].
    + transitivity ((ca * ca + sa * sa) * (t2 * n3 - t3 * n2)); [ring|rewrite A; ring].
    + transitivity ((ca * ca + sa * sa) * (t3 * n1 - t1 * n3)); [ring|rewrite A; ring].
    + transitivity ((ca * ca + sa * sa) * (t1 * n2 - t2 * n1)); [ring|rewrite A; ring].
Qed.

(** Derivatives of the frame along the track. *)
Section Derivatives.
Context (th mu ph : R -> R) (s dth dmu dph : R).
Context (Hth : is_derive th s dth) (Hmu : is_derive mu s dmu) (Hph : is_derive ph s dph).
Definition ang (x : R) : euler := Euler (th x) (mu x) (ph x).
Definition dang : euler := Euler dth dmu dph.
Definition kap : vec := curvature (ang s) dang.

Ltac der :=
  auto_derive; [repeat split; (exists dth; exact Hth) || (exists dmu; exact Hmu) || (exists dph; exact Hph) || exact I|];
  assert (E1 : Derive (fun x => th x) s = dth) by exact (is_derive_unique th s dth Hth);
  assert (E2 : Derive (fun x => mu x) s = dmu) by exact (is_derive_unique mu s dmu Hmu);
  assert (E3 : Derive (fun x => ph x) s = dph) by exact (is_derive_unique ph s dph Hph);
  rewrite ?E1, ?E2, ?E3.

Lemma d_tangent : vderive (fun x => tangent (ang x)) s (vsub (vscale (vz kap) (normal (ang s))) (vscale (vy kap) (binormal (ang s)))).
Proof.
  unfold vderive, kap, curvature, ang, dang, tangent, normal, binormal, vsub, vscale. cbn [yaw pitch roll vx vy vz].
  pose proof (cs (th s)); pose proof (cs (mu s)); pose proof (cs (ph s)).
  split; [|split]; der; ring [H H0 H1].
Qed.
Lemma d_normal : vderive (fun x => normal (ang x)) s (vsub (vscale (vx kap) (binormal (ang s))) (vscale (vz kap) (tangent (ang s)))).
Proof.
  unfold vderive, kap, curvature, ang, dang, tangent, normal, binormal, vsub, vscale. cbn [yaw pitch roll vx vy vz].
  pose proof (cs (th s)); pose proof (cs (mu s)); pose proof (cs (ph s)).
  split; [|split]; der; ring [H H0 H1].
Qed.
Lemma d_binormal : vderive (fun x => binormal (ang x)) s (vsub (vscale (vy kap) (tangent (ang s))) (vscale (vx kap) (normal (ang s)))).
Proof.
  unfold vderive, kap, curvature, ang, dang, tangent, normal, binormal, vsub, vscale. cbn [yaw pitch roll vx vy vz].
  pose proof (cs (th s)); pose proof (cs (mu s)); pose proof (cs (ph s)).
  split; [|split]; der; ring [H H0 H1].
Qed.
End Derivatives.

(** Chain and product rules, componentwise. *)
Lemma vderive_comp f S t d ds : is_derive S t ds -> vderive f (S t) d -> vderive (fun x => f (S x)) t (vscale ds d).
Proof.
  intros HS (H1 & H2 & H3). unfold vscale. split; [|split]; cbn [vx vy vz];
    [apply (is_derive_comp (fun x => vx (f x)) S) | apply (is_derive_comp (fun x => vy (f x)) S) | apply (is_derive_comp (fun x => vz (f x)) S)];
    assumption.
Qed.
Lemma vderive_add f g t df dg : vderive f t df -> vderive g t dg -> vderive (fun x => vadd (f x) (g x)) t (vadd df dg).
Proof.
  intros (H1 & H2 & H3) (G1 & G2 & G3). unfold vadd. split; [|split]; cbn [vx vy vz]; apply @is_derive_plus; assumption.
Qed.
Lemma vderive_scale k g t dk dg : is_derive k t dk -> vderive g t dg -> vderive (fun x => vscale (k x) (g x)) t (vadd (vscale dk (g t)) (vscale (k t) dg)).
Proof.
  intros Hk (G1 & G2 & G3). unfold vadd, vscale.
  split; [|split]; cbn [vx vy vz]; apply @is_derive_mult; try assumption; intros; apply Rmult_comm.
Qed.
Lemma vderive_eq f t d d' : vderive f t d -> d = d' -> vderive f t d'.
Proof. intros H <-. exact H. Qed.
Lemma vderive_ext f g t d : (forall x, f x = g x) -> vderive f t d -> vderive g t d.
Proof.
  intros E (H1 & H2 & H3). split; [|split]; (eapply is_derive_ext; [|eassumption]); intros; cbn; now rewrite E.
Qed.

Lemma right_handed_cross t n b : right_handed t n b -> cross n b = t /\ cross b t = n.
Proof.
  destruct t as [t1 t2 t3], n as [n1 n2 n3], b as [b1 b2 b3]. unfold right_handed, dot, cross. cbn [vx vy vz].
  intros (Htt & Hnn & Hbb & Htn & Hnb & Htb & [= E1 E2 E3]). rewrite <- E1, <- E2, <- E3.
  split; f_equal.
  - transitivity (t1 * (n1 * n1 + n2 * n2 + n3 * n3) - n1 * (t1 * n1 + t2 * n2 + t3 * n3)); [ring|rewrite Hnn, Htn; ring].
  - transitivity (t2 * (n1 * n1 + n2 * n2 + n3 * n3) - n2 * (t1 * n1 + t2 * n2 + t3 * n3)); [ring|rewrite Hnn, Htn; ring].
  - transitivity (t3 * (n1 * n1 + n2 * n2 + n3 * n3) - n3 * (t1 * n1 + t2 * n2 + t3 * n3)); [ring|rewrite Hnn, Htn; ring].
  - transitivity (n1 * (t1 * t1 + t2 * t2 + t3 * t3) - t1 * (t1 * n1 + t2 * n2 + t3 * n3)); [ring|rewrite Htt, Htn; ring].
  - transitivity (n2 * (t1 * t1 + t2 * t2 + t3 * t3) - t2 * (t1 * n1 + t2 * n2 + t3 * n3)); [ring|rewrite Htt, Htn; ring].
  - transitivity (n3 * (t1 * t1 + t2 * t2 + t3 * t3) - t3 * (t1 * n1 + t2 * n2 + t3 * n3)); [ring|rewrite Htt, Htn; ring].
Qed.
