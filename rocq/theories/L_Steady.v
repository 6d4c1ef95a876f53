(** Lemmas about the acceleration searches and the g-g diagram. *)
From Coq Require Import ZArith QArith Qabs Qminmax Qpower Bool Arith List Lia Lqa.
From Verif Require Import M_Controls M_Laptime M_Steady S_Steady.
Import ListNotations.
Local Open Scope Q_scope.

Lemma Qlt_bool_iff a b : Qlt_bool a b = true <-> a < b.
Proof.
  unfold Qlt_bool. rewrite negb_true_iff. split; intro H.
  - apply Qnot_le_lt. intro C. apply Qle_bool_iff in C. congruence.
  - apply not_true_iff_false. intro C. apply Qle_bool_iff in C. lra.
Qed.
Lemma Qlt_bool_false a b : Qlt_bool a b = false <-> b <= a.
Proof.
  split; intro H.
  - apply Qnot_lt_le. intro C. apply Qlt_bool_iff in C. congruence.
  - apply not_true_iff_false. intro C. apply Qlt_bool_iff in C. lra.
Qed.

Lemma near_false a b tol : near a b tol = false -> tol <= Qabs (a - b).
Proof. intro H. now apply Qlt_bool_false. Qed.
Lemma near_true a b tol : near a b tol = true -> Qabs (a - b) < tol.
Proof. intro H. now apply Qlt_bool_iff. Qed.

Lemma consecutive_cons {A} (R : A -> A -> Prop) a l :
  (forall b, nth_error l 0 = Some b -> R a b) -> consecutive R l -> consecutive R (a :: l).
Proof. intros H1 H2 [|i] x y Hx Hy; simpl in *; [injection Hx as <-; auto|eauto]. Qed.

Lemma consecutive_nil {A} (R : A -> A -> Prop) : consecutive R [].
Proof. intros [|i] x y Hx; discriminate. Qed.

Lemma is_last_cons {A} (a b : A) l : is_last (a :: l) b -> (l = [] /\ a = b) \/ (l <> [] /\ is_last l b).
Proof.
  intros [[|c l'] E]; simpl in E; injection E as -> ->; [left; auto|].
  right. split; [destruct l'; discriminate|]. now exists l'.
Qed.

Lemma widen_low_spec tol b x b' f : widen_low tol b x = (b', f) -> proper b ->
  inside b b' /\ proper b' /\ hi b' = hi b /\ (f = false -> b' = b /\ clear_of_low tol x b).
Proof.
  unfold widen_low, proper. destruct (near (lo b) x tol) eqn:E; intros [= <- <-] H; unfold inside; simpl.
  - repeat split; try discriminate; lra.
  - repeat split; try lra. now apply near_false.
Qed.
Lemma widen_high_spec tol b x b' f : widen_high tol b x = (b', f) -> proper b ->
  inside b b' /\ proper b' /\ lo b' = lo b /\ (f = false -> b' = b /\ clear_of_high tol x b).
Proof.
  unfold widen_high, proper. destruct (near (hi b) x tol) eqn:E; intros [= <- <-] H; unfold inside; simpl.
  - repeat split; try discriminate; lra.
  - repeat split; try lra. now apply near_false.
Qed.
Lemma inside_trans a b c : inside a b -> inside b c -> inside a c.
Proof. unfold inside. intros [] []. split; lra. Qed.

Section Loops.
Context {X : Type}.

Definition lat_next (s t : box * box * answer X) : Prop :=
  inside (fst (fst s)) (fst (fst t)) /\ inside (snd (fst s)) (snd (fst t)).
Definition lat_proper (s : box * box * answer X) : Prop := proper (fst (fst s)) /\ proper (snd (fst s)).
Definition lat_clear (s : box * box * answer X) : Prop :=
  let x := an_x (snd s) in
  clear_of_low (1#10) (pt_ax x) (fst (fst s)) /\ clear_of_high (1#10) (pt_ax x) (fst (fst s)) /\
  clear_of_low (1#10) (pt_ay x) (snd (fst s)) /\ clear_of_high (1#10) (pt_ay x) (snd (fst s)).

Lemma lat_loop_trace solver : forall left k x0 bx bA, proper bx -> proper bA ->
  let l := lat_loop left k solver x0 bx bA in
  (length l <= left)%nat /\ (0 < left -> exists a, nth_error l 0 = Some (bx, bA, a))%nat /\
  consecutive lat_next l /\ Forall lat_proper l /\
  (forall s, is_last l s -> length l = left \/ lat_clear s).
Proof.
  induction left as [|left IH]; intros k x0 bx bA Hx Hy; cbn [lat_loop].
  - cbn. split; [lia|]. split; [intro; lia|]. split; [apply consecutive_nil|]. split; [constructor|]. now left.
  - set (a := solver k x0 bx bA).
    destruct (widen_low (1#10) bx (pt_ax (an_x a))) as [bx1 f1] eqn:E1.
    destruct (widen_high (1#10) bx1 (pt_ax (an_x a))) as [bx2 f2] eqn:E2.
    destruct (widen_low (1#10) bA (pt_ay (an_x a))) as [by1 f3] eqn:E3.
    destruct (widen_high (1#10) by1 (pt_ay (an_x a))) as [by2 f4] eqn:E4.
    destruct (widen_low_spec _ _ _ _ _ E1 Hx) as (I1 & P1 & _ & C1).
    destruct (widen_high_spec _ _ _ _ _ E2 P1) as (I2 & P2 & _ & C2).
    destruct (widen_low_spec _ _ _ _ _ E3 Hy) as (I3 & P3 & _ & C3).
    destruct (widen_high_spec _ _ _ _ _ E4 P3) as (I4 & P4 & _ & C4).
    destruct (f1 || f2 || f3 || f4) eqn:Ef.
    + destruct (IH (S k) (an_x a) bx2 by2 P2 P4) as (L1 & L2 & L3 & L4 & L5).
      cbn zeta in *. set (l := lat_loop left (S k) solver (an_x a) bx2 by2) in *.
      split; [simpl; lia|]. split; [intro; exists a; reflexivity|]. split.
      { apply consecutive_cons; [|exact L3]. intros b Hb.
        destruct left; [discriminate|]. destruct (L2 ltac:(lia)) as [a' Ha]. rewrite Ha in Hb. injection Hb as <-.
        split; simpl; eapply inside_trans; eassumption. }
      split; [constructor; [split; assumption|exact L4]|].
      intros s Hs. apply is_last_cons in Hs as [[-> <-]|[Hn Hs]].
      * left. destruct left; [reflexivity|]. exfalso. destruct (L2 ltac:(lia)) as [a' Ha]. discriminate.
      * destruct (L5 s Hs) as [E|E]; [left; simpl; lia|now right].
    + split; [simpl; lia|]. split; [intro; exists a; reflexivity|]. split.
      { apply consecutive_cons; [intros b Hb; discriminate|apply consecutive_nil]. }
      split; [constructor; [split; assumption|constructor]|].
      intros s Hs. right. apply is_last_cons in Hs as [[_ <-]|[Hn _]]; [|congruence].
      apply orb_false_iff in Ef as [Ef ->]. apply orb_false_iff in Ef as [Ef ->]. apply orb_false_iff in Ef as [-> ->].
      destruct (C1 eq_refl) as [-> D1]. destruct (C2 eq_refl) as [_ D2].
      destruct (C3 eq_refl) as [-> D3]. destruct (C4 eq_refl) as [_ D4].
      split; [|split; [|split]]; assumption.
Qed.

Definition lon_next (s t : box * answer X) : Prop := inside (fst s) (fst t).
Definition lon_proper (s : box * answer X) : Prop := proper (fst s).
Definition lon_max_clear (s : box * answer X) : Prop :=
  clear_of_low (1#100) (pt_ax (an_x (snd s))) (fst s) /\ clear_of_high (1#5) (pt_ax (an_x (snd s))) (fst s).
Definition lon_min_clear (s : box * answer X) : Prop :=
  clear_of_low 1 (pt_ax (an_x (snd s))) (fst s) /\ an_ok (snd s) = true.

Lemma lon_max_loop_trace solver : forall left k x0 b, lo b < 0 -> 0 < hi b ->
  let l := lon_max_loop left k solver x0 b in
  (length l <= left)%nat /\ (0 < left -> exists a, nth_error l 0 = Some (b, a))%nat /\
  consecutive lon_next l /\ Forall lon_proper l /\
  (forall s, is_last l s -> length l = left \/ lon_max_clear s).
Proof.
  induction left as [|left IH]; intros k x0 b Hl Hh; cbn [lon_max_loop].
  - cbn. split; [lia|]. split; [intro; lia|]. split; [apply consecutive_nil|]. split; [constructor|]. now left.
  - set (a := solver k x0 b).
    set (f1 := near (lo b) (pt_ax (an_x a)) (1#100)).
    set (b1 := if f1 then Box (lo b * 2) (hi b) else b).
    set (f2 := near (hi b1) (pt_ax (an_x a)) (1#5)).
    set (b2 := if f2 then Box (lo b1) (hi b1 * (6#5)) else b1).
    assert (B1 : lo b1 <= lo b /\ hi b1 == hi b) by (unfold b1; destruct f1; simpl; split; lra).
    assert (B2 : lo b2 == lo b1 /\ hi b <= hi b2).
    { unfold b2. destruct B1 as [_ B1]. destruct f2; simpl; split; lra. }
    assert (P : proper b) by (unfold proper; lra).
    destruct (f1 || f2) eqn:Ef.
    + destruct (IH (S k) x0 b2) as (L1 & L2 & L3 & L4 & L5); [destruct B1, B2; lra|destruct B1, B2; lra|].
      cbn zeta in *. set (l := lon_max_loop left (S k) solver x0 b2) in *.
      split; [simpl; lia|]. split; [intro; exists a; reflexivity|]. split.
      { apply consecutive_cons; [|exact L3]. intros c Hb.
        destruct left; [discriminate|]. destruct (L2 ltac:(lia)) as [a' Ha]. rewrite Ha in Hb. injection Hb as <-.
        destruct B1, B2. unfold lon_next, inside; simpl. split; lra. }
      split; [constructor; [exact P|exact L4]|].
      intros s Hs. apply is_last_cons in Hs as [[-> <-]|[Hn Hs]].
      * left. destruct left; [reflexivity|]. exfalso. destruct (L2 ltac:(lia)) as [a' Ha]. discriminate.
      * destruct (L5 s Hs) as [E|E]; [left; simpl; lia|now right].
    + split; [simpl; lia|]. split; [intro; exists a; reflexivity|]. split.
      { apply consecutive_cons; [intros c Hb; discriminate|apply consecutive_nil]. }
      split; [constructor; [exact P|constructor]|].
      intros s Hs. right. apply is_last_cons in Hs as [[_ <-]|[Hn _]]; [|congruence].
      apply orb_false_iff in Ef as [E1 E2]. split; simpl.
      * now apply near_false.
      * unfold f2, b1 in E2. rewrite E1 in E2. now apply near_false.
Qed.

Lemma lon_min_loop_trace solver : forall left k x0 b, proper b ->
  let l := lon_min_loop left k solver x0 b in
  (length l <= left)%nat /\ (0 < left -> exists a, nth_error l 0 = Some (b, a))%nat /\
  consecutive lon_next l /\ Forall lon_proper l /\
  (forall s, is_last l s -> length l = left \/ lon_min_clear s).
Proof.
  induction left as [|left IH]; intros k x0 b P; cbn [lon_min_loop].
  - cbn. split; [lia|]. split; [intro; lia|]. split; [apply consecutive_nil|]. split; [constructor|]. now left.
  - set (a := solver k x0 b).
    destruct (widen_low 1 b (pt_ax (an_x a))) as [b1 f] eqn:E1.
    destruct (widen_low_spec _ _ _ _ _ E1 P) as (I1 & P1 & _ & C1).
    destruct (negb f && an_ok a) eqn:Ef.
    + split; [simpl; lia|]. split; [intro; exists a; reflexivity|]. split.
      { apply consecutive_cons; [intros c Hb; discriminate|apply consecutive_nil]. }
      split; [constructor; [exact P|constructor]|].
      intros s Hs. right. apply is_last_cons in Hs as [[_ <-]|[Hn _]]; [|congruence].
      apply andb_true_iff in Ef as [E2 E3]. apply negb_true_iff in E2. destruct (C1 E2). split; assumption.
    + destruct (IH (S k) (if f then an_x a else x0) b1 P1) as (L1 & L2 & L3 & L4 & L5).
      cbn zeta in *. set (l := lon_min_loop left (S k) solver (if f then an_x a else x0) b1) in *.
      split; [simpl; lia|]. split; [intro; exists a; reflexivity|]. split.
      { apply consecutive_cons; [|exact L3]. intros c Hb.
        destruct left; [discriminate|]. destruct (L2 ltac:(lia)) as [a' Ha]. rewrite Ha in Hb. injection Hb as <-.
        exact I1. }
      split; [constructor; [exact P|exact L4]|].
      intros s Hs. apply is_last_cons in Hs as [[-> <-]|[Hn Hs]].
      * left. destruct left; [reflexivity|]. exfalso. destruct (L2 ltac:(lia)) as [a' Ha]. discriminate.
      * destruct (L5 s Hs) as [E|E]; [left; simpl; lia|now right].
Qed.

Lemma lat_loop_asked solver : forall left k x0 bx bA i b1 b2 a,
  nth_error (lat_loop left k solver x0 bx bA) i = Some (b1, b2, a) -> exists p : point X, a = solver (k + i)%nat p b1 b2.
Proof.
  induction left as [|left IH]; intros k x0 bx bA i b1 b2 a; cbn [lat_loop]; [destruct i; discriminate|].
  set (c := solver k x0 bx bA).
  destruct (widen_low _ bx _) as [bx1 f1]. destruct (widen_high _ bx1 _) as [bx2 f2].
  destruct (widen_low _ bA _) as [by1 f3]. destruct (widen_high _ by1 _) as [by2 f4].
  destruct i as [|i]; cbn [nth_error].
  - intros [= <- <- <-]. exists x0. now rewrite Nat.add_0_r.
  - destruct (f1 || f2 || f3 || f4); [|destruct i; discriminate]. intro H. apply IH in H as [p H].
    exists p. now replace (k + S i)%nat with (S k + i)%nat by lia.
Qed.
Lemma lon_max_loop_asked solver : forall left k x0 b i c a,
  nth_error (lon_max_loop left k solver x0 b) i = Some (c, a) -> exists p : point X, a = solver (k + i)%nat p c.
Proof.
  induction left as [|left IH]; intros k x0 b i c a; cbn [lon_max_loop]; [destruct i; discriminate|].
  destruct i as [|i]; cbn [nth_error].
  - intros [= <- <-]. exists x0. now rewrite Nat.add_0_r.
  - destruct (_ || _); [|destruct i; discriminate]. intro H. apply IH in H as [p H].
    exists p. now replace (k + S i)%nat with (S k + i)%nat by lia.
Qed.
Lemma lon_min_loop_asked solver : forall left k x0 b i c a,
  nth_error (lon_min_loop left k solver x0 b) i = Some (c, a) -> exists p : point X, a = solver (k + i)%nat p c.
Proof.
  induction left as [|left IH]; intros k x0 b i c a; cbn [lon_min_loop]; [destruct i; discriminate|].
  destruct (widen_low _ _ _) as [b1 f]. destruct i as [|i]; cbn [nth_error].
  - intros [= <- <-]. exists x0. now rewrite Nat.add_0_r.
  - destruct (_ && _); [destruct i; discriminate|]. intro H. apply IH in H as [p H].
    exists p. now replace (k + S i)%nat with (S k + i)%nat by lia.
Qed.

Lemma last_answer_is {B} (l : list (B * answer X)) d s : is_last l s -> last_answer l d = snd s.
Proof. intros [l' ->]. unfold last_answer. rewrite rev_app_distr. simpl. now destruct s. Qed.

Lemma last_answer_cons {B} (s t : B * answer X) l d : last_answer (s :: t :: l) d = last_answer (t :: l) d.
Proof.
  destruct (exists_last (l := t :: l)) as (l' & z & E); [discriminate|].
  rewrite (last_answer_is (t :: l) d z) by (exists l'; exact E).
  apply last_answer_is. exists (s :: l'). simpl. now rewrite E.
Qed.

Lemma nonempty_last {A} (l : list A) : l <> [] -> exists s, is_last l s.
Proof. intro H. destruct (exists_last H) as (l' & s & E). now exists s, l'. Qed.

(** *** Exact optimisers *)
Lemma Qpower_step (q : Q) (n : nat) : q ^ Z.of_nat (S n) == q * q ^ Z.of_nat n.
Proof.
  rewrite Nat2Z.inj_succ, <- Z.add_1_r. destruct (Qeq_dec q 0) as [E|E].
  - rewrite E. rewrite Qpower_0 by lia. ring.
  - rewrite Qpower_plus by assumption. change (q ^ 1) with q. ring.
Qed.
Lemma Qpower_ge1 (q : Q) (n : nat) : 1 <= q -> 1 <= q ^ Z.of_nat n.
Proof.
  intro H. induction n as [|n IH]; [change (q ^ Z.of_nat 0) with 1; lra|]. rewrite Qpower_step. nra.
Qed.

Lemma lon_max_found (solver : nat -> point X -> box -> answer X) f_lo f_hi d : maximises f_lo f_hi solver ->
  forall left k x0 b, lo b <= 0 -> 0 < hi b -> lo b <= f_hi -> f_lo <= hi b ->
  f_hi <= hi b * (6#5) ^ Z.of_nat left ->
  an_ok (last_answer (lon_max_loop (S left) k solver x0 b) d) = true /\
  pt_ax (an_x (last_answer (lon_max_loop (S left) k solver x0 b) d)) == f_hi.
Proof.
  intro HM. induction left as [|left IH]; intros k x0 b Hl Hh Hf Hg Hp.
  - destruct (HM k x0 b ltac:(lra) Hf Hg) as [A B].
    change ((6#5) ^ Z.of_nat 0) with 1 in Hp.
    assert (E : last_answer (lon_max_loop 1 k solver x0 b) d = solver k x0 b).
    { cbn [lon_max_loop]. destruct (_ || _); reflexivity. }
    rewrite E. split; [exact A|]. rewrite B. apply Q.min_l. lra.
  - destruct (HM k x0 b ltac:(lra) Hf Hg) as [A B].
    remember (S left) as l1 eqn:El. cbn [lon_max_loop].
    set (a := solver k x0 b) in *.
    set (f1 := near (lo b) (pt_ax (an_x a)) (1#100)).
    set (b1 := if f1 then Box (lo b * 2) (hi b) else b).
    set (f2 := near (hi b1) (pt_ax (an_x a)) (1#5)).
    set (b2 := if f2 then Box (lo b1) (hi b1 * (6#5)) else b1).
    assert (B1 : lo b1 <= lo b /\ hi b1 == hi b) by (unfold b1; destruct f1; simpl; split; lra).
    destruct B1 as [B1 B1'].
    destruct (Qlt_le_dec f_hi (hi b)) as [Hlt|Hge].
    + (* found already *)
      assert (Ex : pt_ax (an_x a) == f_hi) by (rewrite B; apply Q.min_l; lra).
      destruct (f1 || f2); [|split; [exact A|exact Ex]].
      subst l1. assert (B2 : lo b2 == lo b1 /\ hi b <= hi b2).
      { unfold b2. destruct f2; simpl; split; lra. }
      destruct B2 as [B2 B2'].
      assert (HP : 1 <= (6#5) ^ Z.of_nat left) by (apply Qpower_ge1; lra).
      destruct (lon_max_loop (S left) (S k) solver x0 b2) as [|t l] eqn:EL; [discriminate|].
      rewrite last_answer_cons, <- EL. apply IH; try lra. nra.
    + (* clipped: the upper bound is raised *)
      assert (Ex : pt_ax (an_x a) == hi b) by (rewrite B; apply Q.min_r; lra).
      assert (F2 : f2 = true).
      { unfold f2, near. apply Qlt_bool_iff. rewrite B1', Ex.
        setoid_replace (hi b - hi b) with 0 by ring. reflexivity. }
      rewrite F2, orb_true_r. subst l1. unfold b2. rewrite F2.
      destruct (lon_max_loop (S left) (S k) solver x0 _) as [|t l] eqn:EL; [discriminate|].
      rewrite last_answer_cons, <- EL. rewrite Qpower_step in Hp.
      apply IH; simpl; rewrite ?B1'; try lra.
Qed.

Lemma lon_min_found (solver : nat -> point X -> box -> answer X) f_lo f_hi d : minimises f_lo f_hi solver ->
  forall left k x0 b, proper b -> lo b <= f_hi -> f_lo <= hi b ->
  hi b - (hi b - lo b) * (5#4) ^ Z.of_nat left <= f_lo ->
  an_ok (last_answer (lon_min_loop (S left) k solver x0 b) d) = true /\
  pt_ax (an_x (last_answer (lon_min_loop (S left) k solver x0 b) d)) == f_lo.
Proof.
  intro HM. induction left as [|left IH]; intros k x0 b Hb Hf Hg Hp; unfold proper in Hb.
  - destruct (HM k x0 b ltac:(lra) Hf Hg) as [A B].
    change ((5#4) ^ Z.of_nat 0) with 1 in Hp.
    assert (E : last_answer (lon_min_loop 1 k solver x0 b) d = solver k x0 b).
    { cbn [lon_min_loop]. destruct (widen_low 1 b _). destruct (_ && _); reflexivity. }
    rewrite E. split; [exact A|]. rewrite B. apply Q.max_l. lra.
  - destruct (HM k x0 b ltac:(lra) Hf Hg) as [A B].
    remember (S left) as l1 eqn:El. cbn [lon_min_loop]. set (a := solver k x0 b) in *.
    rewrite A.
    unfold widen_low. destruct (near (lo b) (pt_ax (an_x a)) 1) eqn:En; cbn [negb andb].
    + subst l1.
      destruct (lon_min_loop (S left) (S k) solver (an_x a) _) as [|t l] eqn:EL.
      { exfalso. cbn [lon_min_loop] in EL. destruct (widen_low _ _ _). discriminate. }
      rewrite last_answer_cons, <- EL. rewrite Qpower_step in Hp.
      apply IH; unfold proper; cbn [lo hi]; try lra.
    + split; [exact A|]. change (pt_ax (an_x a) == f_lo). apply near_false in En. rewrite B in *.
      apply Q.max_l. apply Qnot_lt_le. intro C.
      assert (E : Qmax f_lo (lo b) == lo b) by (apply Q.max_r; lra). rewrite E in En.
      setoid_replace (lo b - lo b) with 0 in En by ring. change (Qabs 0) with 0 in En. lra.
Qed.

(** *** The diagram *)
Lemma size_pred_pos n : (1 <= n)%nat -> (Z.of_nat n <= 2 ^ 64)%Z -> size_pred n = (n - 1)%nat.
Proof. intros H1 H2. unfold size_pred. rewrite Z.mod_small by lia. lia. Qed.
Lemma size_pred_0 : exists k, size_pred 0 = S k.
Proof.
  unfold size_pred. assert (H : (0 < (Z.of_nat 0 - 1) mod 2 ^ 64)%Z) by (vm_compute; reflexivity).
  destruct (Z.to_nat ((Z.of_nat 0 - 1) mod 2 ^ 64)) as [|k] eqn:E; [lia|]. now exists k.
Qed.

Lemma nth_error_take {A} : forall i j (l : list A), (j < i)%nat -> nth_error (firstn i l) j = nth_error l j.
Proof. induction i as [|i IH]; intros [|j] [|a l] H; simpl; try lia; auto. apply IH. lia. Qed.
Lemma nth_error_drop {A} : forall i j (l : list A), nth_error (skipn i l) j = nth_error l (i + j).
Proof. induction i as [|i IH]; intros j [|a l]; simpl; auto. now destruct j. Qed.

Lemma wr_ok {A} (l : list A) i a : (i < length l)%nat -> exists l', wr l i a = Ok l' /\ length l' = length l /\
  nth_error l' i = Some a /\ (forall j, j <> i -> nth_error l' j = nth_error l j).
Proof.
  intro H. unfold wr. apply Nat.ltb_lt in H as Hb. rewrite Hb.
  exists (firstn i l ++ a :: skipn (S i) l). split; [reflexivity|].
  assert (Hf : length (firstn i l) = i) by (rewrite firstn_length; lia).
  split. { rewrite app_length. cbn [length]. rewrite Hf, skipn_length. lia. }
  split. { rewrite nth_error_app2 by lia. now rewrite Hf, Nat.sub_diag. }
  intros j Hj. destruct (Nat.lt_ge_cases j i) as [L|L].
  - rewrite nth_error_app1 by lia. now apply nth_error_take.
  - rewrite nth_error_app2 by lia. rewrite Hf. replace (j - i)%nat with (S (j - S i)) by lia. cbn [nth_error].
    rewrite nth_error_drop. f_equal. lia.
Qed.

Lemma rd_some {A} (l : list A) i a : nth_error l i = Some a -> rd l i = Ok a.
Proof. intro H. unfold rd. now rewrite H. Qed.

(** What the entries of the diagram before the last one are. *)
Definition max_entry u (sv : solvers X) (rl rmax : solution X) ay (e : solution X) : Prop :=
  exists p, e = lon_solution u ay (sv_max sv (ay / u) 0 p (Box (s_ax rl / u - (1#2) / u) (s_ax rmax / u + (1#10) / u))).
Definition min_entry u (sv : solvers X) (rl rmin : solution X) ay (e : solution X) : Prop :=
  exists k p, e = lon_solution u ay (sv_min sv (ay / u) k p (Box (s_ax rmin / u - (1#10) / u) (s_ax rl / u + (1#10) / u))).

Definition filled u sv rl rmax rmin (ay_gg : list Q) (n i : nat) (st : list (solution X) * list (solution X) * solution X) : Prop :=
  let '(smax, smin, _) := st in
  length smax = n /\ length smin = n /\
  forall j ay, (j < i)%nat -> nth_error ay_gg j = Some ay ->
    exists e1 e2, nth_error smax j = Some e1 /\ max_entry u sv rl rmax ay e1 /\
                  nth_error smin j = Some e2 /\ min_entry u sv rl rmin ay e2.

Lemma gg_body_ok u sv x0 rl rmax rmin ay_gg n i st :
  length ay_gg = n -> (i < n)%nat -> filled u sv rl rmax rmin ay_gg n i st ->
  exists st', gg_body u sv x0 rl rmax rmin ay_gg i st = Ok st' /\ filled u sv rl rmax rmin ay_gg n (S i) st'.
Proof.
  intros Hn Hi. destruct st as [[smax smin] rss]. intros (L1 & L2 & HF). unfold gg_body.
  destruct (nth_error ay_gg i) as [ay|] eqn:Ea; [|apply nth_error_None in Ea; lia].
  rewrite (rd_some _ _ _ Ea). cbn [bind].
  set (rss' := if s_ok _ then _ else _).
  set (p := Point (s_rest rss') (s_ax rss' / u) 0).
  set (amax := sv_max sv _ _ _ _).
  destruct (wr_ok smax i (lon_solution u ay amax) ltac:(lia)) as (smax' & -> & M1 & M2 & M3). cbn [bind].
  set (bmin := Box _ _). set (amin := sv_min sv (ay / u) 0 p bmin).
  assert (Hm : exists k q, (if an_ok amin then Ok amin
     else if Nat.ltb 0 i then bind (rd smin (i - 1)) (fun q => Ok (sv_min sv (ay / u) 1 (Point (s_rest q) (s_ax q / u) 0) bmin))
          else Ok amin) = Ok (sv_min sv (ay / u) k q bmin)).
  { destruct (an_ok amin); [now exists 0%nat, p|]. destruct (Nat.ltb 0 i); [|now exists 0%nat, p].
    destruct (nth_error smin (i - 1)) as [q|] eqn:Eq; [|apply nth_error_None in Eq; lia].
    rewrite (rd_some _ _ _ Eq). cbn [bind]. now eexists 1%nat, _. }
  destruct Hm as (k & q & ->). cbn [bind].
  destruct (wr_ok smin i (lon_solution u ay (sv_min sv (ay / u) k q bmin)) ltac:(lia)) as (smin' & -> & N1 & N2 & N3).
  cbn [bind]. eexists. split; [reflexivity|]. split; [lia|]. split; [lia|].
  intros j ay' Hj Hay. destruct (Nat.eq_dec j i) as [->|Hne].
  - rewrite Ea in Hay. injection Hay as <-. do 2 eexists. split; [exact M2|]. split; [now exists p|].
    split; [exact N2|]. now exists k, q.
  - destruct (HF j ay' ltac:(lia) Hay) as (e1 & e2 & A1 & A2 & A3 & A4). exists e1, e2.
    rewrite M3, N3 by assumption. auto.
Qed.

Lemma gg_loop_ok u sv x0 rl rmax rmin ay_gg n : length ay_gg = n -> forall k i st, (i + k <= n)%nat ->
  filled u sv rl rmax rmin ay_gg n i st ->
  exists st', loop k i (gg_body u sv x0 rl rmax rmin ay_gg) st = Ok st' /\ filled u sv rl rmax rmin ay_gg n (i + k) st'.
Proof.
  intro Hn. induction k as [|k IH]; intros i st Hk HF.
  - exists st. rewrite Nat.add_0_r. split; [reflexivity|exact HF].
  - destruct (gg_body_ok u sv x0 rl rmax rmin ay_gg n i st Hn ltac:(lia) HF) as (st1 & E1 & H1).
    cbn [loop]. rewrite E1. cbn [bind].
    destruct (IH (S i) st1 ltac:(lia) H1) as (st2 & E2 & H2). exists st2. split; [exact E2|].
    now replace (i + S k)%nat with (S i + k)%nat by lia.
Qed.

Lemma linspace_length a b n : length (linspace a b n) = n.
Proof. unfold linspace. now rewrite map_length, seq_length. Qed.
Lemma linspace_nth a b n i : (i < n)%nat ->
  nth_error (linspace a b n) i = Some (a + inject_Z (Z.of_nat i) * (b - a) / inject_Z (Z.of_nat (n - 1))).
Proof.
  intro H. unfold linspace. rewrite nth_error_map.
  rewrite (nth_error_nth' _ 0%nat) by (rewrite seq_length; lia). now rewrite seq_nth by lia.
Qed.

Lemma gg_ok u sv d d0 n rmax rmin : (1 <= n)%nat -> (Z.of_nat n <= 2 ^ 64)%Z ->
  solve_max_lon_acc u sv d 0 = Ok (rmax, rmin) ->
  let rl := solve_max_lat_acc u sv d in
  exists smax smin, gg_diagram u sv d d0 n = Ok (smax, smin) /\ length smax = n /\ length smin = n /\
    nth_error smax (n - 1) = Some rl /\ nth_error smin (n - 1) = Some rl /\
    forall j, (j < n - 1)%nat -> exists e1 e2, let ay := 0 + inject_Z (Z.of_nat j) * (s_ay rl - 0) / inject_Z (Z.of_nat (n - 1)) in
      nth_error smax j = Some e1 /\ max_entry u sv rl rmax ay e1 /\
      nth_error smin j = Some e2 /\ min_entry u sv rl rmin ay e2.
Proof.
  intros H1 H2 E. cbn zeta. unfold gg_diagram. rewrite E. cbn [bind]. rewrite size_pred_pos by assumption.
  set (rl := solve_max_lat_acc u sv d).
  unfold for_range. rewrite Nat.sub_0_r.
  destruct (gg_loop_ok u sv (s_rest (solve u sv 0 0 None)) rl rmax rmin (linspace 0 (s_ay rl) n) n (linspace_length _ _ _)
    (n - 1) 0 (repeat d0 n, repeat d0 n, solve u sv 0 0 None)) as (st & -> & HF).
  - lia.
  - split; [apply repeat_length|]. split; [apply repeat_length|]. intros j ay Hj. lia.
  - destruct st as [[smax smin] rss]. destruct HF as (L1 & L2 & HF). cbn [bind].
    destruct smax as [|a smax]; [simpl in L1; lia|]. destruct smin as [|b smin]; [simpl in L2; lia|].
    destruct (wr_ok (a :: smax) (length (a :: smax) - 1) rl ltac:(lia)) as (l1 & -> & A1 & A2 & A3). cbn [bind].
    destruct (wr_ok (b :: smin) (length (b :: smin) - 1) rl ltac:(lia)) as (l2 & -> & B1 & B2 & B3). cbn [bind].
    exists l1, l2. rewrite L1 in *. rewrite L2 in *.
    split; [reflexivity|]. split; [lia|]. split; [lia|]. split; [exact A2|]. split; [exact B2|].
    intros j Hj. destruct (HF j _ ltac:(lia) (linspace_nth 0 (s_ay rl) n j ltac:(lia))) as (e1 & e2 & C1 & C2 & C3 & C4).
    exists e1, e2. rewrite A3, B3 by lia. auto.
Qed.

Lemma max_lon_ok u sv (d : answer X) ay : ay <= s_ay (solve_max_lat_acc u sv d) ->
  exists r, solve_max_lon_acc u sv d ay = Ok r.
Proof.
  intro H. unfold solve_max_lon_acc. apply Qlt_bool_false in H. rewrite H. now eexists.
Qed.

Lemma ok_pair {A B} (a c : A) (b d : B) : Ok (a, b) = Ok (c, d) -> c = a /\ d = b.
Proof. intro H. injection H as -> ->. now split. Qed.

Lemma max_lon_inv u sv (d : answer X) ay r1 r2 : solve_max_lon_acc u sv d ay = Ok (r1, r2) -> exists x0,
  r1 = lon_solution u ay (last_answer (lon_max_loop 8 0 (sv_max sv (ay / u)) x0 (lon_max_box u)) d) /\
  r2 = lon_solution u ay (last_answer (lon_min_loop 30 0 (sv_min sv (ay / u)) x0 (lon_min_box u (s_ax (solve_max_lat_acc u sv d)))) d).
Proof.
  unfold solve_max_lon_acc. destruct (Qlt_bool _ ay); [discriminate|]. intro H. apply ok_pair in H.
  match type of H with context [lon_max_loop 8 0 _ ?x _] => exists x end. exact H.
Qed.

End Loops.
