(** Lemmas on tracks made of arcs: gluing the segments. *)
From Coq Require Import Reals String Lra Lia.
From Coquelicot Require Import Coquelicot.
From Coq Require Import List.
From Verif Require Import M_Vec M_Controls M_Arcs S_Road S_Arcs L_Arcs.
Import ListNotations.
Local Open Scope R_scope.

Lemma glue_derive (f g h : R -> R) a d : is_derive f a d -> is_derive g a d -> f a = g a ->
  (forall x, x < a -> h x = f x) -> (forall x, a <= x -> h x = g x) -> is_derive h a d.
Proof.
  intros Hf Hg E Hl Hr. apply is_derive_Reals in Hf. apply is_derive_Reals in Hg. apply is_derive_Reals.
  intros eps He. destruct (Hf eps He) as [d1 H1]. destruct (Hg eps He) as [d2 H2].
  assert (Hm : 0 < Rmin d1 d2) by (apply Rmin_pos; apply cond_pos).
  exists (mkposreal _ Hm). intros x Hx0 Hx. cbn in Hx.
  assert (Ha : h a = g a) by (apply Hr; lra).
  destruct (Rlt_dec x 0) as [N|P].
  - rewrite (Hl (a + x)) by lra. rewrite Ha, <- E. apply H1; [exact Hx0|]. eapply Rlt_le_trans; [exact Hx | apply Rmin_l].
  - rewrite (Hr (a + x)) by lra. rewrite Ha. apply H2; [exact Hx0|]. eapply Rlt_le_trans; [exact Hx | apply Rmin_r].
Qed.

Lemma near_lt (a s : R) : s < a -> locally s (fun x => x < a).
Proof. intros H. exact (open_lt a s H). Qed.
Lemma near_gt (a s : R) : a < s -> locally s (fun x => a < x).
Proof. intros H. exact (open_gt a s H). Qed.

Lemma glue_continuous (f g h : R -> R) a : continuous f a -> continuous g a -> f a = g a ->
  (forall x, x < a -> h x = f x) -> (forall x, a <= x -> h x = g x) -> continuous h a.
Proof.
  intros Hf Hg E Hl Hr P HP. assert (Ha : h a = g a) by (apply Hr; lra). rewrite Ha in HP.
  pose proof (Hg P HP) as G. rewrite <- E in HP. pose proof (Hf P HP) as F. unfold filtermap in *.
  eapply filter_imp; [|apply filter_and; [exact F | exact G]]. cbn. intros x [A B].
  destruct (Rlt_dec x a) as [N|N]; [now rewrite Hl | rewrite Hr by lra; exact B].
Qed.

Lemma vderive_ext_loc f g t d : locally t (fun x => f x = g x) -> vderive f t d -> vderive g t d.
Proof.
  intros E (H1 & H2 & H3).
  split; [|split]; (eapply is_derive_ext_loc; [|eassumption]); (eapply filter_imp; [|exact E]); intros x Hx; cbv beta; now rewrite Hx.
Qed.

Lemma vglue_derive (f g h : R -> vec) a d : vderive f a d -> vderive g a d -> f a = g a ->
  (forall x, x < a -> h x = f x) -> (forall x, a <= x -> h x = g x) -> vderive h a d.
Proof.
  intros (F1 & F2 & F3) (G1 & G2 & G3) E Hl Hr.
  split; [eapply glue_derive; [exact F1 | exact G1 | | |] | split; [eapply glue_derive; [exact F2 | exact G2 | | |] | eapply glue_derive; [exact F3 | exact G3 | | |]]];
    cbv beta; try (now rewrite E); intros x Hx; first [now rewrite (Hl _ Hx) | now rewrite (Hr _ Hx)].
Qed.

Lemma vderive_continuous f s d : vderive f s d -> vcontinuous f s.
Proof.
  intros (A & B & C). split; [|split]; apply @ex_derive_continuous; eexists; eassumption.
Qed.

Lemma vcontinuous_ext_loc f g s : locally s (fun x => f x = g x) -> vcontinuous f s -> vcontinuous g s.
Proof.
  intros E (A & B & C).
  split; [eapply continuous_ext_loc; [|exact A] | split; [eapply continuous_ext_loc; [|exact B] | eapply continuous_ext_loc; [|exact C]]];
    (eapply filter_imp; [|exact E]); intros x Hx; cbv beta; now rewrite Hx.
Qed.

Lemma vglue_continuous (f g h : R -> vec) a : vcontinuous f a -> vcontinuous g a -> f a = g a ->
  (forall x, x < a -> h x = f x) -> (forall x, a <= x -> h x = g x) -> vcontinuous h a.
Proof.
  intros (F1 & F2 & F3) (G1 & G2 & G3) E Hl Hr.
  split; [eapply glue_continuous; [exact F1 | exact G1 | | |] | split; [eapply glue_continuous; [exact F2 | exact G2 | | |] | eapply glue_continuous; [exact F3 | exact G3 | | |]]];
    cbv beta; try (now rewrite E); intros x Hx; first [now rewrite (Hl _ Hx) | now rewrite (Hr _ Hx)].
Qed.

(** The motion along a list of segments. *)
Definition still : motion := MkMotion vzero vzero vzero vzero.
Definition along (l : list segment) (s : R) : motion :=
  match find_segment l s with Some g => segment_at g s | None => still end.

Lemma along_one g s : along [g] s = segment_at g s.
Proof. reflexivity. Qed.
Lemma along_left g g' l s : s < g_s g' -> along (g :: g' :: l) s = segment_at g s.
Proof. intros H. unfold along. cbn [find_segment]. destruct (Rlt_dec _ _); [reflexivity | contradiction]. Qed.
Lemma along_right g g' l s : g_s g' <= s -> along (g :: g' :: l) s = along (g' :: l) s.
Proof. intros H. unfold along. cbn [find_segment]. destruct (Rlt_dec _ _); [lra | reflexivity]. Qed.

Lemma along_start g l : linked (g :: l) -> along (g :: l) (g_s g) = segment_at g (g_s g).
Proof.
  intros H. inversion H as [|? g' l' Hd Hs]; subst; [reflexivity|]. now apply along_left.
Qed.

Lemma along_derive l : linked l -> forall s, vderive (fun x => m_r (along l x)) s (m_dr (along l s)).
Proof.
  induction 1 as [g Hd|g g' l Hd Hs Hp Ht Hl IH]; intros s.
  - apply (segment_derive g Hd).
  - destruct (Rlt_dec s (g_s g')) as [A|A]; [|destruct (Req_dec (g_s g') s) as [B|B]].
    + rewrite along_left by exact A. eapply vderive_ext_loc; [|apply (segment_derive g Hd)].
      eapply filter_imp; [|exact (near_lt _ _ A)]. cbn. intros x Hx. now rewrite along_left.
    + subst s. assert (Hd' : flat_unit (g_dir g')) by (apply (linked_unit _ Hl); now left).
      destruct (segment_starts g' Hd') as [P1 P2].
      rewrite along_right by lra. rewrite along_start by exact Hl. rewrite P2.
      eapply (vglue_derive (fun x => m_r (segment_at g x)) (fun x => m_r (along (g' :: l) x))).
      * rewrite <- Ht. apply (segment_derive g Hd).
      * pose proof (IH (g_s g')) as I. rewrite along_start, P2 in I by exact Hl. exact I.
      * rewrite along_start by exact Hl. now rewrite P1.
      * intros x Hx. now rewrite along_left.
      * intros x Hx. now rewrite along_right.
    + assert (C : g_s g' < s) by lra. rewrite along_right by lra.
      eapply vderive_ext_loc; [|apply (IH s)].
      eapply filter_imp; [|exact (near_gt _ _ C)]. cbn. intros x Hx. rewrite along_right by lra. reflexivity.
Qed.

Lemma along_turning l : linked l -> forall s, vcontinuous (fun x => m_dr (along l x)) s.
Proof.
  induction 1 as [g Hd|g g' l Hd Hs Hp Ht Hl IH]; intros s.
  - eapply vderive_continuous. apply (segment_derive2 g Hd).
  - destruct (Rlt_dec s (g_s g')) as [A|A]; [|destruct (Req_dec (g_s g') s) as [B|B]].
    + eapply vcontinuous_ext_loc; [|eapply vderive_continuous; apply (segment_derive2 g Hd)].
      eapply filter_imp; [|exact (near_lt _ _ A)]. cbn. intros x Hx. now rewrite along_left.
    + subst s. assert (Hd' : flat_unit (g_dir g')) by (apply (linked_unit _ Hl); now left).
      destruct (segment_starts g' Hd') as [P1 P2].
      eapply (vglue_continuous (fun x => m_dr (segment_at g x)) (fun x => m_dr (along (g' :: l) x))).
      * eapply vderive_continuous. apply (segment_derive2 g Hd).
      * apply IH.
      * rewrite along_start by exact Hl. now rewrite P2.
      * intros x Hx. now rewrite along_left.
      * intros x Hx. now rewrite along_right.
    + assert (C : g_s g' < s) by lra.
      eapply vcontinuous_ext_loc; [|apply (IH s)].
      eapply filter_imp; [|exact (near_gt _ _ C)]. cbn. intros x Hx. rewrite along_right by lra. reflexivity.
Qed.

Lemma find_some l s : l <> [] -> exists g, find_segment l s = Some g /\ In g l.
Proof.
  induction l as [|g [|g' l] IH]; intros H; [contradiction | |].
  - exists g. split; [reflexivity | now left].
  - cbn [find_segment]. destruct (Rlt_dec _ _); [exists g; split; [reflexivity | now left]|].
    destruct IH as (h & E & I); [discriminate|]. exists h. split; [exact E | now right].
Qed.

(** Starting arclengths grow. *)
Lemma linked_grow l : linked l -> forall i j g h, nth_error l i = Some g -> nth_error l j = Some h -> (i < j)%nat -> g_s g < g_s h.
Proof.
  induction 1 as [g0 Hd|g0 g' l Hd Hs Hp Ht Hl IH]; intros i j g h Hi Hj L.
  - destruct j as [|[|j]]; [lia | discriminate | discriminate].
  - destruct j as [|j]; [lia|]. cbn in Hj. destruct i as [|i].
    + injection Hi as <-. destruct j as [|j]; [injection Hj as <-; exact Hs|].
      eapply Rlt_trans; [exact Hs|]. eapply (IH 0%nat (S j)); [reflexivity | exact Hj | lia].
    + eapply (IH i j); [exact Hi | exact Hj | lia].
Qed.

Lemma find_inside l : linked l -> forall i g s, nth_error l i = Some g -> (i <> 0%nat -> g_s g <= s) ->
  (forall g', nth_error l (S i) = Some g' -> s < g_s g') -> find_segment l s = Some g.
Proof.
  induction 1 as [g0 Hd|g0 g' l Hd Hs Hp Ht Hl IH]; intros i g s Hi H1 H2.
  - destruct i as [|[|i]]; [|discriminate|discriminate]. exact Hi.
  - cbn [find_segment]. destruct i as [|i].
    + injection Hi as <-. destruct (Rlt_dec _ _) as [A|A]; [reflexivity|]. exfalso. apply A. now apply H2.
    + cbn [nth_error] in Hi. assert (A : g_s g' <= s).
      { destruct i as [|i]; [injection Hi as <-; apply H1; discriminate|].
        eapply Rle_trans; [apply Rlt_le; eapply (linked_grow _ Hl 0%nat (S i)); [reflexivity | exact Hi | lia] | apply H1; discriminate]. }
      destruct (Rlt_dec _ _) as [B|B]; [lra|]. apply (IH i); [exact Hi | | exact H2].
      intros _. apply H1. discriminate.
Qed.

(** ** The angle of a unit vector *)
Lemma cos_sin_atan t : cos (atan t) = / sqrt (1 + t * t) /\ sin (atan t) = t / sqrt (1 + t * t).
Proof.
  pose proof (atan_bound t) as [A B]. pose proof (tan_atan t) as T. unfold tan in T.
  assert (C : 0 < cos (atan t)) by (apply cos_gt_0; lra).
  assert (S1 : sin (atan t) = t * cos (atan t)) by (rewrite <- T at 2; field; lra).
  pose proof (sc (atan t)) as P. rewrite S1 in P.
  assert (E : cos (atan t) * cos (atan t) * (1 + t * t) = 1) by lra.
  assert (Q : 0 < 1 + t * t) by nra.
  assert (D : cos (atan t) = / sqrt (1 + t * t)).
  { apply Rmult_eq_reg_r with (sqrt (1 + t * t)); [|apply Rgt_not_eq, sqrt_lt_R0, Q].
    rewrite Rinv_l by (apply Rgt_not_eq, sqrt_lt_R0, Q).
    assert (0 < sqrt (1 + t * t)) by now apply sqrt_lt_R0.
    assert (sqrt (1 + t * t) * sqrt (1 + t * t) = 1 + t * t) by (apply sqrt_sqrt; lra).
    set (c := cos (atan t)) in *. set (q := sqrt (1 + t * t)) in *.
    assert (Z : (c * q - 1) * (c * q + 1) = 0) by (transitivity (c * c * (q * q) - 1); [ring | rewrite H0; lra]).
    assert (0 < c * q) by now apply Rmult_lt_0_compat.
    apply Rmult_integral in Z. destruct Z; lra. }
  split; [exact D|]. rewrite S1, D. reflexivity.
Qed.

Lemma atan2_unit x y : x * x + y * y = 1 -> cos (atan2 y x) = x /\ sin (atan2 y x) = y.
Proof.
  intros H. unfold atan2.
  assert (K : x <> 0 -> sqrt (1 + y / x * (y / x)) = / Rabs x).
  { intros Hx. replace (1 + y / x * (y / x)) with (Rsqr (/ x)).
    - rewrite sqrt_Rsqr_abs. apply Rabs_inv.
    - unfold Rsqr. transitivity ((x * x + y * y) / (x * x)); [rewrite H; field; exact Hx | field; exact Hx]. }
  destruct (Rlt_dec 0 x) as [P|P]; [|destruct (Rlt_dec x 0) as [N|N]].
  - destruct (cos_sin_atan (y / x)) as [C S]. rewrite C, S, K by lra. rewrite (Rabs_right x) by lra.
    split; [apply Rinv_inv | unfold Rdiv; rewrite Rinv_inv; field; lra].
  - destruct (cos_sin_atan (y / x)) as [C S].
    assert (E1 : forall a, cos (a - PI) = - cos a /\ sin (a - PI) = - sin a).
    { intros a. rewrite cos_minus, sin_minus, cos_PI, sin_PI. split; ring. }
    assert (E2 : forall a, cos (a + PI) = - cos a /\ sin (a + PI) = - sin a).
    { intros a. rewrite neg_cos, neg_sin. split; reflexivity. }
    assert (R1 : - cos (atan (y / x)) = x /\ - sin (atan (y / x)) = y).
    { rewrite C, S, K by lra. rewrite (Rabs_left x) by lra. split; [rewrite Rinv_inv; ring | unfold Rdiv; rewrite Rinv_inv; field; lra]. }
    destruct (Rlt_dec y 0).
    + destruct (E1 (atan (y / x))) as [-> ->]. exact R1.
    + destruct (E2 (atan (y / x))) as [-> ->]. exact R1.
  - assert (x = 0) by lra. subst x.
    assert (Hy : (y - 1) * (y + 1) = 0) by nra. apply Rmult_integral in Hy.
    destruct (Rlt_dec 0 y).
    + rewrite cos_PI2, sin_PI2. split; [reflexivity | destruct Hy; lra].
    + destruct (Rlt_dec y 0); [rewrite cos_neg, sin_neg, cos_PI2, sin_PI2; split; [reflexivity | destruct Hy; lra] | destruct Hy; lra].
Qed.
