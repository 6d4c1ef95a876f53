(** Lemmas on the accumulation of boundary errors. *)
From Coq Require Import Reals Lra Lia List.
From Verif Require Import M_Errors S_Errors.
Import ListNotations.
Local Open Scope R_scope.

Definition pos (l : list R) : Prop := Forall (fun d => 0 < d) l.

Lemma last_cons2 (a b : R) l d : last (a :: b :: l) d = last (b :: l) d.
Proof. reflexivity. Qed.

Lemma error_loop_cons s0 s1 t e e2 a : error_loop (s0 :: s1 :: t) (e :: e2) a = error_loop (s1 :: t) e2 (error_step s0 s1 e a).
Proof. reflexivity. Qed.

Lemma arclengths_cons s0 x0 ds : exists t, arclengths s0 x0 ds = s0 :: t.
Proof. destruct ds; cbn; eauto. Qed.

Lemma arclengths_last s0 x0 ds : 0 < x0 -> pos ds -> s0 <= last (arclengths s0 x0 ds) 0 /\ (ds <> [] -> s0 < last (arclengths s0 x0 ds) 0).
Proof.
  intros Hx. revert s0. induction ds as [|d ds IH]; intros s0 Hp; [cbn; split; [lra|congruence]|].
  inversion_clear Hp. cbn [arclengths]. destruct (arclengths_cons (s0 + d * x0) x0 ds) as [t Et]. rewrite Et, last_cons2, <- Et.
  destruct (IH (s0 + d * x0)) as [I _]; [assumption|]. assert (0 < d * x0) by (apply Rmult_lt_0_compat; assumption). split; intros; lra.
Qed.

Lemma sqrt_sq_le e M : 0 <= e -> sqrt e <= M -> sqrt e * sqrt e <= M * M.
Proof. intros He HM. pose proof (sqrt_pos e). nra. Qed.

(** Upper and lower bounds of the loop in terms of a bound of all errors. *)
Lemma error_loop_bound x0 ds : 0 < x0 -> pos ds -> forall s0 e2 a M,
  length e2 = length ds -> 0 <= a_prev a <= M -> a_max a <= M -> 
  (forall e, In e e2 -> sqrt e <= M) ->
  let b := error_loop (arclengths s0 x0 ds) e2 a in
  a_max b <= M /\ 0 <= a_prev b <= M /\ a_sum a <= a_sum b <= a_sum a + (last (arclengths s0 x0 ds) 0 - s0) * (M * M).
Proof.
  intros Hx. induction ds as [|d ds IH]; intros Hp s0 e2 a M Hl Hprev Hmax Hin; destruct e2 as [|e e2]; try discriminate; cbn zeta.
  - cbn. nra.
  - inversion_clear Hp as [|? ? Hd Hds]. cbn [arclengths]. destruct (arclengths_cons (s0 + d * x0) x0 ds) as [t Et]. rewrite Et, last_cons2.
    rewrite error_loop_cons. rewrite <- Et.
    assert (He : sqrt e <= M) by (apply Hin; now left). pose proof (sqrt_pos e) as He0.
    assert (Hdx : 0 < d * x0) by (apply Rmult_lt_0_compat; assumption).
    destruct (IH Hds (s0 + d * x0) e2 (error_step s0 (s0 + d * x0) e a) M) as (A & B & C).
    + now injection Hl.
    + cbn. lra.
    + cbn. apply Rmax_lub; lra.
    + intros e' He'. apply Hin. now right.
    + split; [exact A|split; [exact B|]].
      set (q := a_prev a * a_prev a + sqrt e * sqrt e). assert (Hq : 0 <= q <= 2 * (M * M)) by (unfold q; nra).
      assert (Hstep : a_sum (error_step s0 (s0 + d * x0) e a) = a_sum a + 0.5 * (d * x0) * q).
      { cbn. fold q. replace (s0 + d * x0 - s0) with (d * x0) by ring. reflexivity. }
      assert (H1 : 0 <= 0.5 * (d * x0) * q) by nra.
      assert (H2 : 0.5 * (d * x0) * q <= (d * x0) * (M * M)) by nra.
      rewrite Hstep in C. lra.
Qed.

Lemma error_loop_max x0 ds : forall s0 e2 a, length e2 = length ds ->
  let b := error_loop (arclengths s0 x0 ds) e2 a in
  a_max a <= a_max b /\ (forall e, In e e2 -> sqrt e <= a_max b) /\ (a_max b = a_max a \/ exists e, In e e2 /\ a_max b = sqrt e).
Proof.
  induction ds as [|d ds IH]; intros s0 e2 a Hl; destruct e2 as [|e e2]; try discriminate; cbn zeta.
  - cbn. split; [lra|split; [tauto|now left]].
  - cbn [arclengths]. destruct (arclengths_cons (s0 + d * x0) x0 ds) as [t Et]. rewrite Et. rewrite error_loop_cons. rewrite <- Et.
    destruct (IH (s0 + d * x0) e2 (error_step s0 (s0 + d * x0) e a)) as (A & B & C); [now injection Hl|].
    cbn [a_max error_step] in A, C. pose proof (Rmax_l (sqrt e) (a_max a)). pose proof (Rmax_r (sqrt e) (a_max a)).
    split; [lra|split].
    + intros e' [<-|He']; [lra|now apply B].
    + destruct C as [C|[e' [He' C]]].
      * rewrite C. unfold Rmax. destruct (Rle_dec _ _); [now left|right; exists e; split; [now left|reflexivity]].
      * right. exists e'. split; [now right|exact C].
Qed.

(** A zero sum means zero errors. *)
Lemma error_loop_zero x0 ds : 0 < x0 -> pos ds -> ds <> [] -> forall s0 e2 a,
  length e2 = length ds -> (forall e, In e e2 -> 0 <= e) -> 0 <= a_sum a ->
  a_sum (error_loop (arclengths s0 x0 ds) e2 a) = 0 -> a_sum a = 0 /\ a_prev a = 0 /\ forall e, In e e2 -> e = 0.
Proof.
  intros Hx Hp Hne. revert Hne Hp. induction ds as [|d ds IH]; intros Hne Hp s0 e2 a Hl Hin Ha Hs; [congruence|]. destruct e2 as [|e e2]; [discriminate|].
  inversion_clear Hp as [|? ? Hd Hds].
  revert Hs. cbn [arclengths]. destruct (arclengths_cons (s0 + d * x0) x0 ds) as [t Et]. rewrite Et. rewrite error_loop_cons. rewrite <- Et. intros Hs.
  assert (Hdx : 0 < d * x0) by (apply Rmult_lt_0_compat; assumption).
  assert (He : 0 <= e) by (apply Hin; now left).
  assert (Hq : 0 <= a_prev a * a_prev a + sqrt e * sqrt e) by nra.
  assert (Hstep : a_sum (error_step s0 (s0 + d * x0) e a) = a_sum a + 0.5 * (d * x0) * (a_prev a * a_prev a + sqrt e * sqrt e)).
  { cbn. replace (s0 + d * x0 - s0) with (d * x0) by ring. reflexivity. }
  assert (K : a_sum (error_step s0 (s0 + d * x0) e a) = 0 -> a_sum a = 0 /\ a_prev a = 0 /\ e = 0).
  { rewrite Hstep. intros K. assert (a_sum a = 0) by nra. assert (a_prev a * a_prev a + sqrt e * sqrt e = 0) by nra.
    pose proof (sqrt_pos e). assert (a_prev a = 0) by nra. assert (sqrt e = 0) by nra. split; [assumption|split; [assumption|]]. now apply sqrt_eq_0. }
  destruct ds as [|d2 ds].
  - destruct e2; [|discriminate]. cbn in Hs. destruct K as (K1 & K2 & K3); [cbn; exact Hs|]. split; [exact K1|split; [exact K2|]]. intros e' [<-|[]]. exact K3.
  - destruct (IH ltac:(discriminate) Hds (s0 + d * x0) e2 (error_step s0 (s0 + d * x0) e a)) as (A & B & C).
    + now injection Hl.
    + intros e' He'. apply Hin. now right.
    + rewrite Hstep. nra.
    + exact Hs.
    + destruct (K A) as (K1 & K2 & K3). split; [exact K1|split; [exact K2|]]. intros e' [<-|He']; [exact K3|now apply C].
Qed.
Lemma error_loop_all_zero x0 ds : forall s0 e2 a, length e2 = length ds -> (forall e, In e e2 -> e = 0) -> a_sum a = 0 -> a_prev a = 0 -> a_max a = 0 ->
  let b := error_loop (arclengths s0 x0 ds) e2 a in a_sum b = 0 /\ a_prev b = 0 /\ a_max b = 0.
Proof.
  induction ds as [|d ds IH]; intros s0 e2 a Hl Hin H1 H2 H3; destruct e2 as [|e e2]; try discriminate; cbn zeta; [cbn; auto|].
  cbn [arclengths]. destruct (arclengths_cons (s0 + d * x0) x0 ds) as [t Et]. rewrite Et. rewrite error_loop_cons. rewrite <- Et.
  assert (He : e = 0) by (apply Hin; now left). subst e.
  apply IH; [now injection Hl|intros; apply Hin; now right| | |]; cbn; rewrite sqrt_0, ?H1, ?H2, ?H3; [ring|reflexivity|apply Rmax_left; lra].
Qed.

Lemma arclengths_length s0 x0 ds : length (arclengths s0 x0 ds) = S (length ds).
Proof. revert s0. induction ds as [|d ds IH]; intros; cbn; [reflexivity|now rewrite IH]. Qed.

Lemma trapezoid_cons p q l : trapezoid (p :: q :: l) = (fst q - fst p) * (snd p + snd q) / 2 + trapezoid (q :: l).
Proof. reflexivity. Qed.

Lemma trapezoid_snoc s e x y : length s = length e -> s <> [] ->
  trapezoid (combine s e ++ [(x, y)]) = trapezoid (combine s e) + (x - last s 0) * (last e 0 + y) / 2.
Proof.
  revert e. induction s as [|s0 s IH]; intros e Hl Hne; [congruence|]. destruct e as [|e0 e]; [discriminate|].
  destruct s as [|s1 s]; destruct e as [|e1 e]; try discriminate.
  - cbn. lra.
  - cbn [combine app]. rewrite !trapezoid_cons. 
    specialize (IH (e1 :: e)). cbn [combine app] in IH. rewrite IH; [|cbn in *; lia|discriminate].
    rewrite !last_cons2. lra.
Qed.

Lemma error_loop_trapezoid x0 ds : forall s0 first rest a, length rest = length ds -> (forall e, In e (first :: rest) -> 0 <= e) ->
  a_prev a = sqrt first -> pos ds -> 0 < x0 ->
  let b := error_loop (arclengths s0 x0 ds) rest a in
  let tz := trapezoid (combine (arclengths s0 x0 ds) (first :: rest)) in
  a_sum b = a_sum a + tz /\ a_prev b * a_prev b = last (first :: rest) 0 /\ 0 <= last (first :: rest) 0 /\ 0 <= tz.
Proof.
  induction ds as [|d ds IH]; intros s0 first rest a Hl Hpos Hprev Hp Hx; destruct rest as [|e rest]; try discriminate; cbv zeta.
  - cbn. assert (0 <= first) by (apply Hpos; now left). rewrite Hprev, sqrt_sqrt by assumption. lra.
  - inversion_clear Hp as [|? ? Hd Hds]. cbn [arclengths]. destruct (arclengths_cons (s0 + d * x0) x0 ds) as [t Et]. rewrite Et. rewrite error_loop_cons.
    cbn [combine]. rewrite trapezoid_cons. rewrite <- Et.
    assert (H0 : 0 <= first) by (apply Hpos; now left). assert (H1 : 0 <= e) by (apply Hpos; right; now left).
    destruct (IH (s0 + d * x0) e rest (error_step s0 (s0 + d * x0) e a)) as (A & B & C & D); 
      [now injection Hl|intros e' He'; apply Hpos; now right|reflexivity|exact Hds|exact Hx|].
    change ((s0 + d * x0, e) :: combine t rest) with (combine (s0 + d * x0 :: t) (e :: rest)). rewrite <- Et.
    rewrite last_cons2. cbn [fst snd].
    assert (0 < d * x0) by (apply Rmult_lt_0_compat; assumption).
    split; [|split; [exact B|split; [exact C|nra]]].
    rewrite A. unfold error_step. cbn [a_sum]. rewrite Hprev, !sqrt_sqrt by assumption. lra.
Qed.
