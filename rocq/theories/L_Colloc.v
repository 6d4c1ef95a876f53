(** Lemmas on the objective and the constraints of the laptime problem. *)
From Coq Require Import QArith Qfield Bool Arith Lia List Setoid.
From Verif Require Import M_Controls S_Controls L_Controls M_Laptime S_Laptime L_Pack L_Pack2 L_Pack4 S_Colloc.
Import ListNotations.
Local Open Scope nat_scope.

Lemma sum_app {A} (f : A -> Q) a b : (sum f (a ++ b) == sum f a + sum f b)%Q.
Proof. induction a; cbn; [ring|]. rewrite IHa. ring. Qed.
Lemma sum_ext {A} (f g : A -> Q) l : (forall a, In a l -> f a == g a)%Q -> (sum f l == sum g l)%Q.
Proof. induction l; cbn; intros H; [reflexivity|]. rewrite H, IHl by auto. reflexivity. Qed.
Lemma sum_zero {A} (f : A -> Q) l : (forall a, In a l -> f a == 0)%Q -> (sum f l == 0)%Q.
Proof. induction l; cbn; intros H; [reflexivity|]. rewrite H, IHl by auto. ring. Qed.
Lemma sum_plus {A} (f g : A -> Q) l : (sum (fun a => f a + g a) l == sum f l + sum g l)%Q.
Proof. induction l; cbn; [ring|]. rewrite IHl. ring. Qed.
Lemma sum_swap {A B} (f : A -> B -> Q) la lb :
  (sum (fun a => sum (fun b => f a b) lb) la == sum (fun b => sum (fun a => f a b) la) lb)%Q.
Proof.
  induction la; cbn; [symmetry; apply sum_zero; reflexivity|]. rewrite IHla. symmetry. apply sum_plus.
Qed.
Lemma sum_map {A B} (g : A -> B) (f : B -> Q) l : sum f (map g l) = sum (fun a => f (g a)) l.
Proof. induction l; cbn; congruence. Qed.

Lemma loop_for_each {St} n : forall a (body : nat -> St -> res St) st,
  loop n a body st = for_each (seq a n) body st.
Proof. induction n; intros a body st; cbn; [reflexivity|]. destruct (body a st); cbn; auto. Qed.

(** ** Composition of writes, additions to the objective and updates of the integrals *)
Definition does (vs : list Q) (dq : Q) (di : list Q -> list Q) (f : fg_state -> res fg_state) : Prop :=
  forall obj cv ints, in_vec cv -> forall cv', wr vs cv = Ok cv' ->
    exists obj', f (obj, (cv, ints)) = Ok (obj', (cv', di ints)) /\ (obj' == obj + dq)%Q.

Lemma does_conv vs dq di f vs' dq' di' f' :
  does vs dq di f -> vs = vs' -> (dq == dq')%Q -> (forall i, di i = di' i) -> (forall st, f' st = f st) ->
  does vs' dq' di' f'.
Proof.
  intros H <- Hq Hd Hf obj cv ints Hv cv' E. rewrite Hf. destruct (H obj cv ints Hv cv' E) as (o & E1 & E2).
  exists o. rewrite <- Hd. split; [exact E1|]. rewrite <- Hq. exact E2.
Qed.

Lemma does_ok : does [] 0 (fun i => i) (fun st => Ok st).
Proof.
  intros obj cv ints Hv cv' E. rewrite wr_nil in E by exact Hv. injection E as <-.
  exists obj. split; [reflexivity|]. ring.
Qed.

Lemma does_bind v1 q1 d1 f v2 q2 d2 g : does v1 q1 d1 f -> does v2 q2 d2 g ->
  does (v1 ++ v2) (q1 + q2) (fun i => d2 (d1 i)) (fun st => bind (f st) g).
Proof.
  intros Hf Hg obj cv ints Hv cv' E. rewrite <- wr_app in E by exact Hv.
  apply bind_ok in E. destruct E as (cv1 & E1 & E2).
  destruct (Hf obj cv ints Hv cv1 E1) as (o1 & F1 & Q1).
  destruct (Hg o1 cv1 (d1 ints) (wr_in_vec _ _ _ Hv E1) cv' E2) as (o2 & F2 & Q2).
  exists o2. rewrite F1. cbn [bind]. split; [exact F2|]. rewrite Q2, Q1. ring.
Qed.

Lemma does_put v : does [v] 0 (fun i => i) (put_fg v).
Proof.
  intros obj cv ints Hv cv' E. unfold put_fg. rewrite put_wr, E. cbn. exists obj. split; [reflexivity|]. ring.
Qed.

Lemma does_obj q : does [] q (fun i => i) (fun st => Ok (add_obj q st)).
Proof.
  intros obj cv ints Hv cv' E. rewrite wr_nil in E by exact Hv. injection E as <-.
  exists (obj + q)%Q. split; reflexivity.
Qed.

Lemma does_ints v : does [] 0 (fun i => vadd i v) (fun st => Ok (add_ints v st)).
Proof.
  intros obj cv ints Hv cv' E. rewrite wr_nil in E by exact Hv. injection E as <-.
  exists obj. split; [reflexivity|]. ring.
Qed.

Lemma does_for_each {A} (l : list A) (body : A -> fg_state -> res fg_state) vs dq di :
  (forall a, In a l -> does (vs a) (dq a) (di a) (body a)) ->
  does (flat_map vs l) (sum dq l) (fun i => fold_left (fun acc a => di a acc) l i) (for_each l body).
Proof.
  induction l as [|a l IH]; intros H; cbn [flat_map sum fold_left].
  - apply (does_conv _ _ _ _ _ _ _ _ does_ok); reflexivity.
  - eapply does_conv; [apply (does_bind _ _ _ _ _ _ _ _ (H a (or_introl eq_refl)) (IH (fun b Hb => H b (or_intror Hb))))| | | |];
      reflexivity.
Qed.

Lemma fold_id {A B} (l : list A) (i : B) : fold_left (fun acc (_ : A) => acc) l i = i.
Proof. induction l; cbn; auto. Qed.

(** for loops whose iterations leave the integrals alone *)
Lemma does_for_each_id {A} (l : list A) (body : A -> fg_state -> res fg_state) vs dq :
  (forall a, In a l -> does (vs a) (dq a) (fun i => i) (body a)) ->
  does (flat_map vs l) (sum dq l) (fun i => i) (for_each l body).
Proof.
  intros H. eapply does_conv; [exact (does_for_each l body vs dq (fun _ i => i) H)| | | |]; try reflexivity.
  intros i. apply fold_id.
Qed.

Lemma does_each {A} (l : list A) (body : A -> fg_state -> res fg_state) vs dq V D :
  (forall a, In a l -> does (vs a) (dq a) (fun i => i) (body a)) -> flat_map vs l = V -> (sum dq l == D)%Q ->
  does V D (fun i => i) (for_each l body).
Proof.
  intros H HV HD. eapply does_conv; [exact (does_for_each_id l body vs dq H)|exact HV|exact HD| |]; reflexivity.
Qed.

Lemma nth_pt evs i : i < length evs -> rd evs i = Ok (pt evs i).
Proof. intros H. apply rd_nth. exact H. Qed.

Section Elements.
Context (m : car) (sigma : Q) (s : list Q) (cs : list control_variable) (ib : list integral_bound).
Context (direct : bool) (ins : list (list Q)) (evs : list evaluation).
Context (F : facts direct m (length s) ins cs) (E : evaluations_ok m ib s evs).

Definition residual (id : nat) (e : element) : Q :=
  (state_at evs id (el_r e) - state_at evs id (el_l e)
   - el_ds e * ((1 - sigma) * dstate_at evs id (el_l e) + sigma * dstate_at evs id (el_r e)))%Q.
Definition rate_residual (e : element) (c : control_variable) : Q :=
  (value c (el_r e) - value c (el_l e)
   - el_ds e * ((1 - sigma) * rate c (el_l e) * dt_at m evs (el_l e) + sigma * rate c (el_r e) * dt_at m evs (el_r e)))%Q.
Definition full_only {A} (f : control_variable -> A) (c : control_variable) : list A :=
  if kind_eqb (c_kind c) FULL_MESH then [f c] else [].
Definition el_values (e : element) : list Q :=
  map (fun id => residual id e) (differential_ids m) ++
  map (fun id => dstate_at evs id (el_r e) / dt_at m evs (el_r e))%Q (algebraic_ids m) ++
  map (fun j => extra_at evs j (el_r e)) (seq 0 (n_extra m)) ++
  (if direct then [] else flat_map (full_only (rate_residual e)) cs).

Definition ends_ok (e : element) : Prop := el_l e < length s /\ el_r e < length s.

Lemma ev_ok i : i < length s -> evaluation_ok m ib (pt evs i).
Proof. intros H. apply (proj2 E). apply nth_In. rewrite (proj1 E). exact H. Qed.

Lemma rd_state i id : i < length s -> In id (st_time m :: differential_ids m ++ algebraic_ids m) ->
  rd (e_states (pt evs i)) id = Ok (state_at evs id i) /\ rd (e_dstates (pt evs i)) id = Ok (dstate_at evs id i).
Proof.
  intros Hi Hin. destruct (ev_ok i Hi) as (H & _). destruct (H id Hin) as [H1 H2].
  split; apply rd_nth; assumption.
Qed.

Lemma full_reads c i : In c cs -> c_kind c = FULL_MESH -> i < length s ->
  rd (c_values c) i = Ok (value c i) /\ (direct = false -> rd (c_rates c) i = Ok (rate c i)).
Proof.
  intros Hin K Hi. apply In_nth_error in Hin. destruct Hin as (j & Ej). split.
  - apply rd_nth. rewrite (f_values _ _ _ _ _ F j c Ej K). exact Hi.
  - intros Hd. apply rd_nth. rewrite (f_rates _ _ _ _ _ F j c Ej K), Hd. exact Hi.
Qed.

Definition pen_rate (ds : Q) (a b : nat) (c : control_variable) : Q :=
  if kind_eqb (c_kind c) FULL_MESH then ((1 # 2) * c_dissipation c * (rate c a * rate c a + rate c b * rate c b) * ds)%Q else 0%Q.
Definition pen_value (ds : Q) (l r : nat) (c : control_variable) : Q :=
  if kind_eqb (c_kind c) FULL_MESH
  then (c_dissipation c * (((value c r - value c l) / ds) * ((value c r - value c l) / ds)) * ds)%Q else 0%Q.

Lemma flat_map_nil {A B} (f : A -> list B) l : (forall a, In a l -> f a = []) -> flat_map f l = [].
Proof. induction l; cbn; intros H; [reflexivity|]. rewrite H, IHl; auto. Qed.

Lemma does_element e pen : ends_ok e -> pen < length s ->
  does (el_values e)
    (el_ds e * ((1 - sigma) * dt_at m evs (el_l e) + sigma * dt_at m evs (el_r e))
     + (if direct then 0 else sum (pen_rate (el_ds e) pen (el_r e)) cs))%Q
    (fun i => i) (fg_element m sigma cs direct evs (el_ds e) (el_l e) (el_r e) pen).
Proof.
  intros [Hl Hr] Hp.
  assert (Hle : el_l e < length evs) by (rewrite (proj1 E); exact Hl).
  assert (Hre : el_r e < length evs) by (rewrite (proj1 E); exact Hr).
  assert (Ht : In (st_time m) (st_time m :: differential_ids m ++ algebraic_ids m)) by (left; reflexivity).
  set (q := (el_ds e * ((1 - sigma) * dt_at m evs (el_l e) + sigma * dt_at m evs (el_r e)))%Q).
  assert (D2 : does [] (if direct then 0 else sum (pen_rate (el_ds e) pen (el_r e)) cs)%Q (fun i => i)
     (fun st => if direct then Ok st else for_each cs (add_rate_penalty (el_ds e) pen (el_r e)) st)).
  { assert (Hd : direct = true \/ direct = false) by (destruct direct; auto). destruct Hd as [Hd|Hd]; rewrite Hd; [exact does_ok|].
    refine (does_each cs _ (fun _ => []) (pen_rate (el_ds e) pen (el_r e)) _ _ _ _ _); [| |reflexivity].
    - intros c Hc. unfold add_rate_penalty, pen_rate. destruct (kind_eqb (c_kind c) FULL_MESH) eqn:K; [|exact does_ok].
      apply kind_eqb_spec in K. destruct (full_reads c pen Hc K Hp) as [_ R1]. destruct (full_reads c (el_r e) Hc K Hr) as [_ R2].
      rewrite (R1 Hd), (R2 Hd). cbn [bind]. apply does_obj.
    - apply flat_map_nil. reflexivity. }
  assert (D3 : does (map (fun id => residual id e) (differential_ids m)) 0 (fun i => i)
     (for_each (differential_ids m) (put_differential sigma (el_ds e) (pt evs (el_l e)) (pt evs (el_r e))))).
  { refine (does_each _ _ (fun id => [residual id e]) (fun _ => 0%Q) _ _ _ _ _).
    - intros id Hid. unfold put_differential.
      assert (Hin : In id (st_time m :: differential_ids m ++ algebraic_ids m)) by (right; apply in_or_app; auto).
      destruct (rd_state (el_l e) id Hl Hin) as [-> ->]. destruct (rd_state (el_r e) id Hr Hin) as [-> ->].
      cbn [bind]. apply does_put.
    - apply flat_map_single.
    - apply sum_zero. reflexivity. }
  assert (D4 : does (map (fun id => dstate_at evs id (el_r e) / dt_at m evs (el_r e))%Q (algebraic_ids m)) 0 (fun i => i)
     (for_each (algebraic_ids m) (put_algebraic (dt_at m evs (el_r e)) (pt evs (el_r e))))).
  { refine (does_each _ _ (fun id => [(dstate_at evs id (el_r e) / dt_at m evs (el_r e))%Q]) (fun _ => 0%Q) _ _ _ _ _).
    - intros id Hid. unfold put_algebraic.
      assert (Hin : In id (st_time m :: differential_ids m ++ algebraic_ids m)) by (right; apply in_or_app; auto).
      destruct (rd_state (el_r e) id Hr Hin) as [_ ->]. cbn [bind]. apply does_put.
    - apply flat_map_single.
    - apply sum_zero. reflexivity. }
  assert (D5 : does (map (fun j => extra_at evs j (el_r e)) (seq 0 (n_extra m))) 0 (fun i => i)
     (for_range 0 (n_extra m) (put_extra (pt evs (el_r e))))).
  { eapply does_conv; [apply (does_for_each_id (seq 0 (n_extra m)) (put_extra (pt evs (el_r e))) (fun j => [extra_at evs j (el_r e)]) (fun _ => 0%Q))| | | |].
    - intros j Hj. apply in_seq in Hj. unfold put_extra. destruct (ev_ok (el_r e) Hr) as (_ & Hx & _).
      rewrite (rd_nth _ j 0%Q) by lia. cbn [bind]. apply does_put.
    - apply flat_map_single.
    - apply sum_zero. reflexivity.
    - reflexivity.
    - intros st. unfold for_range. rewrite loop_for_each, Nat.sub_0_r. reflexivity. }
  assert (D6 : does (if direct then [] else flat_map (full_only (rate_residual e)) cs) 0 (fun i => i)
     (fun st => if direct then Ok st else for_each cs (put_control_rate sigma (el_ds e) (dt_at m evs (el_l e)) (dt_at m evs (el_r e)) (el_l e) (el_r e)) st)).
  { assert (Hd : direct = true \/ direct = false) by (destruct direct; auto). destruct Hd as [Hd|Hd]; rewrite Hd; [exact does_ok|].
    refine (does_each cs _ (full_only (rate_residual e)) (fun _ => 0%Q) _ _ _ _ _); [|reflexivity|].
    - intros c Hc. unfold put_control_rate, full_only. destruct (kind_eqb (c_kind c) FULL_MESH) eqn:K; [|exact does_ok].
      apply kind_eqb_spec in K. destruct (full_reads c (el_l e) Hc K Hl) as [-> R1]. destruct (full_reads c (el_r e) Hc K Hr) as [-> R2].
      rewrite (R1 Hd), (R2 Hd). cbn [bind]. apply does_put.
    - apply sum_zero. reflexivity. }
  eapply does_conv.
  - exact (does_bind _ _ _ _ _ _ _ _ (does_obj q)
     (does_bind _ _ _ _ _ _ _ _ D2 (does_bind _ _ _ _ _ _ _ _ D3 (does_bind _ _ _ _ _ _ _ _ D4 (does_bind _ _ _ _ _ _ _ _ D5 D6))))).
  - reflexivity.
  - unfold q. destruct direct; ring.
  - reflexivity.
  - intros st. unfold fg_element. rewrite (nth_pt evs _ Hle), (nth_pt evs _ Hre). cbn [bind].
    destruct (rd_state (el_l e) _ Hl Ht) as [_ ->]. destruct (rd_state (el_r e) _ Hr Ht) as [_ ->]. reflexivity.
Qed.

Lemma length_full_only {A} (f : control_variable -> A) l : length (flat_map (full_only f) l) = count_full l.
Proof.
  induction l as [|c l IH]; cbn; [reflexivity|]. rewrite app_length, IH. unfold full_only. destruct (c_kind c); reflexivity.
Qed.

Lemma el_values_length e : car_ok m ->
  length (el_values e) = n_inputs m - 1 + n_extra m + (if direct then 0 else count_full cs).
Proof.
  intros (Hc & _). unfold el_values. rewrite !app_length, !map_length, seq_length.
  assert (H : length (if direct then [] else flat_map (full_only (rate_residual e)) cs) = if direct then 0 else count_full cs).
  { destruct direct; [reflexivity|]. apply length_full_only. }
  rewrite H. lia.
Qed.

(** ** Integral quantities *)
Definition contribution (ds : Q) (a b : nat) : list Q :=
  vscale ds (vadd (vscale (1 - sigma) (e_integrands (pt evs a))) (vscale sigma (e_integrands (pt evs b)))).

Lemma does_integral ds a b : a < length s -> b < length s ->
  does [] 0 (fun i => vadd i (contribution ds a b)) (integral_element sigma evs ds a b).
Proof.
  intros Ha Hb. eapply does_conv; [apply (does_ints (contribution ds a b))| | | |]; try reflexivity.
  intros st. unfold integral_element. rewrite !nth_pt by (rewrite (proj1 E); assumption). reflexivity.
Qed.

Lemma vadd_length v w : length v = length w -> length (vadd v w) = length v.
Proof. revert w; induction v; intros [|b w] H; cbn in *; try discriminate; [reflexivity|]. f_equal. apply IHv. lia. Qed.
Lemma vscale_length q v : length (vscale q v) = length v.
Proof. apply map_length. Qed.
Lemma vadd_nth v w j : length v = length w -> (nth j (vadd v w) 0 == nth j v 0 + nth j w 0)%Q.
Proof.
  revert w j; induction v; intros [|b w] j H; cbn in *; try discriminate; [destruct j; cbn; ring|].
  destruct j; [reflexivity|]. apply IHv. lia.
Qed.
Lemma vscale_nth q v j : (nth j (vscale q v) 0 == q * nth j v 0)%Q.
Proof. revert j; induction v; intros [|j]; cbn; try ring. apply IHv. Qed.

Lemma contribution_spec ds a b : a < length s -> b < length s ->
  length (contribution ds a b) = length ib /\
  forall j, (nth j (contribution ds a b) 0 == ds * ((1 - sigma) * integrand_at evs j a + sigma * integrand_at evs j b))%Q.
Proof.
  intros Ha Hb. destruct (ev_ok a Ha) as (_ & _ & La). destruct (ev_ok b Hb) as (_ & _ & Lb).
  unfold contribution. split.
  - rewrite vscale_length, vadd_length; rewrite !vscale_length; congruence.
  - intros j. rewrite vscale_nth, vadd_nth by (rewrite !vscale_length; congruence). rewrite !vscale_nth. reflexivity.
Qed.

Lemma fold_contributions {A} (l : list A) (ds : A -> Q) (a b : A -> nat) : forall ints, length ints = length ib ->
  (forall x, In x l -> a x < length s /\ b x < length s) ->
  let r := fold_left (fun acc x => vadd acc (contribution (ds x) (a x) (b x))) l ints in
  length r = length ib /\
  forall j, (nth j r 0 == nth j ints 0 + sum (fun x => ds x * ((1 - sigma) * integrand_at evs j (a x) + sigma * integrand_at evs j (b x))) l)%Q.
Proof.
  induction l as [|x l IH]; intros ints Hl H; cbn [fold_left sum]; cbv zeta.
  - split; [exact Hl|]. intros j. ring.
  - destruct (H x (or_introl eq_refl)) as [Ha Hb]. destruct (contribution_spec (ds x) (a x) (b x) Ha Hb) as [Lc Vc].
    destruct (IH (vadd ints (contribution (ds x) (a x) (b x)))) as [L V].
    + rewrite vadd_length; congruence.
    + intros y Hy. apply H. right; exact Hy.
    + split; [exact L|]. intros j. rewrite V, vadd_nth, Vc by congruence. ring.
Qed.

(** ** The whole objective *)
Lemma inner_ends e : In e (inner_elements s) -> ends_ok e /\ el_l e < length s - 1 /\ el_r e = S (el_l e).
Proof.
  intros H. apply in_map_iff in H. destruct H as (i & <- & Hi). apply in_seq in Hi. unfold ends_ok. cbn. lia.
Qed.

Lemma closing_ends L : 2 <= length s -> ends_ok (closing_element L s).
Proof. unfold ends_ok. cbn. lia. Qed.

Definition time_rate (e : element) : Q :=
  (el_ds e * ((1 - sigma) * dt_at m evs (el_l e) + sigma * dt_at m evs (el_r e)))%Q.

Definition code_rate_penalty (e : element) (pen : nat) : Q :=
  if direct then 0%Q else sum (pen_rate (el_ds e) pen (el_r e)) cs.

Lemma does_inner_loop (integ : bool) :
  does (flat_map el_values (inner_elements s))
    (sum time_rate (inner_elements s) + sum (fun e => code_rate_penalty e 0) (inner_elements s))%Q
    (fun ints => if integ then fold_left (fun acc e => vadd acc (contribution (el_ds e) (el_l e) (el_r e))) (inner_elements s) ints else ints)
    (for_range 1 (length s) (fun i st =>
          bind (rd s i) (fun si => bind (rd s (i - 1)) (fun sp =>
          bind (fg_element m sigma cs direct evs (si - sp)%Q (i - 1) i (i - i) st) (fun st =>
          if integ then integral_element sigma evs (si - sp)%Q (i - 1) i st else Ok st))))).
Proof.
  set (mk := fun i => MkEl (i - 1) i (nth i s 0 - nth (i - 1) s 0)%Q).
  eapply does_conv; [apply (does_for_each (seq 1 (length s - 1)) (fun i st =>
          bind (rd s i) (fun si => bind (rd s (i - 1)) (fun sp =>
          bind (fg_element m sigma cs direct evs (si - sp)%Q (i - 1) i (i - i) st) (fun st =>
          if integ then integral_element sigma evs (si - sp)%Q (i - 1) i st else Ok st))))
     (fun i => el_values (mk i)) (fun i => time_rate (mk i) + code_rate_penalty (mk i) 0)%Q
     (fun i ints => if integ then vadd ints (contribution (el_ds (mk i)) (el_l (mk i)) (el_r (mk i))) else ints))| | | |].
  - intros i Hi. apply in_seq in Hi.
    assert (He : ends_ok (mk i)) by (unfold ends_ok; cbn; lia).
    assert (D1 := does_element (mk i) 0 He ltac:(lia)).
    assert (D2 : does [] 0 (fun ints => if integ then vadd ints (contribution (el_ds (mk i)) (el_l (mk i)) (el_r (mk i))) else ints)
       (fun st => if integ then integral_element sigma evs (el_ds (mk i)) (el_l (mk i)) (el_r (mk i)) st else Ok st)).
    { destruct integ; [|exact does_ok]. apply does_integral; apply He. }
    eapply does_conv; [exact (does_bind _ _ _ _ _ _ _ _ D1 D2)| | | |].
    + apply app_nil_r.
    + unfold time_rate, code_rate_penalty. ring.
    + reflexivity.
    + intros st. rewrite (rd_nth s i 0%Q), (rd_nth s (i - 1) 0%Q) by lia. cbn [bind]. rewrite Nat.sub_diag. reflexivity.
  - unfold inner_elements. rewrite flat_map_concat_map, flat_map_concat_map, map_map. reflexivity.
  - rewrite sum_plus. unfold inner_elements. rewrite !sum_map. reflexivity.
  - intros ints. destruct integ; [|apply fold_id]. unfold inner_elements. generalize ints.
    induction (seq 1 (length s - 1)) as [|x l IH]; intros i0; [reflexivity|]. cbn [map fold_left]. apply IH.
  - intros st. unfold for_range. rewrite loop_for_each. reflexivity.
Qed.

Lemma does_value_penalty ds l r c : In c cs -> l < length s -> r < length s ->
  does [] (pen_value ds l r c) (fun i => i) (add_value_penalty ds l r c).
Proof.
  intros Hc Hl Hr. unfold add_value_penalty, pen_value. destruct (kind_eqb (c_kind c) FULL_MESH) eqn:K; [|exact does_ok].
  apply kind_eqb_spec in K. destruct (full_reads c l Hc K Hl) as [-> _]. destruct (full_reads c r Hc K Hr) as [-> _].
  cbn [bind]. apply does_obj.
Qed.

Lemma does_value_loop :
  does [] (if direct then sum (fun c => sum (fun e => pen_value (el_ds e) (el_l e) (el_r e) c) (inner_elements s)) cs else 0)%Q (fun i => i)
    (fun st => if direct
        then for_each cs (fun c => for_range 1 (length s) (fun i st =>
               bind (rd s i) (fun si => bind (rd s (i - 1)) (fun sp => add_value_penalty (si - sp)%Q (i - 1) i c st)))) st
        else Ok st).
Proof.
  assert (Hd : direct = true \/ direct = false) by (destruct direct; auto). destruct Hd as [Hd|Hd]; rewrite Hd; [|exact does_ok].
  refine (does_each cs _ (fun _ => []) (fun c => sum (fun e => pen_value (el_ds e) (el_l e) (el_r e) c) (inner_elements s)) _ _ _ _ _);
    [|apply flat_map_nil; reflexivity|reflexivity].
  intros c Hc.
  eapply does_conv; [apply (does_for_each_id (seq 1 (length s - 1)) (fun i st =>
               bind (rd s i) (fun si => bind (rd s (i - 1)) (fun sp => add_value_penalty (si - sp)%Q (i - 1) i c st)))
        (fun _ => []) (fun i => pen_value (nth i s 0 - nth (i - 1) s 0)%Q (i - 1) i c))| | | |].
  - intros i Hi. apply in_seq in Hi. eapply does_conv; [apply (does_value_penalty (nth i s 0 - nth (i - 1) s 0)%Q (i - 1) i c Hc); lia| | | |]; try reflexivity.
    intros st. rewrite (rd_nth s i 0%Q), (rd_nth s (i - 1) 0%Q) by lia. reflexivity.
  - apply flat_map_nil; reflexivity.
  - unfold inner_elements. rewrite sum_map. reflexivity.
  - reflexivity.
  - intros st. unfold for_range. rewrite loop_for_each. reflexivity.
Qed.

Lemma does_closing (closed integ : bool) :
  let e := closing_element (track_length m) s in
  does (if closed then el_values e else [])
    (if closed then time_rate e + code_rate_penalty e (length s - 1) + (if direct then sum (pen_value (el_ds e) (el_l e) (el_r e)) cs else 0) else 0)%Q
    (fun ints => if closed then if integ then vadd ints (contribution (el_ds e) (el_r e) (el_l e)) else ints else ints)
    (fun st => if closed
        then bind (rd s (length s - 1)) (fun sl =>
             let ds := (track_length m - sl)%Q in
             bind (fg_element m sigma cs direct evs ds (length s - 1) 0 (length s - 1) st) (fun st =>
             bind (if direct then for_each cs (add_value_penalty ds (length s - 1) 0) st else Ok st) (fun st =>
             if integ then integral_element sigma evs ds 0 (length s - 1) st else Ok st)))
        else Ok st).
Proof.
  intros e. destruct closed; [|exact does_ok].
  pose proof (f_n _ _ _ _ _ F) as Hn.
  pose proof (closing_ends (track_length m) Hn) as He. fold e in He.
  assert (D1 := does_element e (length s - 1) He ltac:(lia)).
  assert (D2 : does [] (if direct then sum (pen_value (el_ds e) (el_l e) (el_r e)) cs else 0)%Q (fun i => i)
    (fun st => if direct then for_each cs (add_value_penalty (el_ds e) (el_l e) (el_r e)) st else Ok st)).
  { assert (Hd : direct = true \/ direct = false) by (destruct direct; auto). destruct Hd as [Hd|Hd]; rewrite Hd; [|exact does_ok].
    eapply does_conv; [apply (does_for_each_id cs (add_value_penalty (el_ds e) (el_l e) (el_r e)) (fun _ => []) (pen_value (el_ds e) (el_l e) (el_r e)))| | | |];
      try reflexivity; [|apply flat_map_nil; reflexivity].
    intros c Hc. apply does_value_penalty; [exact Hc|apply He|apply He]. }
  assert (D3 : does [] 0 (fun ints => if integ then vadd ints (contribution (el_ds e) (el_r e) (el_l e)) else ints)
       (fun st => if integ then integral_element sigma evs (el_ds e) (el_r e) (el_l e) st else Ok st)).
  { destruct integ; [|exact does_ok]. apply does_integral; apply He. }
  eapply does_conv; [exact (does_bind _ _ _ _ _ _ _ _ D1 (does_bind _ _ _ _ _ _ _ _ D2 D3))| | | |].
  - rewrite !app_nil_r. reflexivity.
  - unfold time_rate, code_rate_penalty. ring.
  - reflexivity.
  - intros st. rewrite (rd_nth s (length s - 1) 0%Q) by lia. reflexivity.
Qed.
End Elements.
