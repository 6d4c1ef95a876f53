(** The objective, the constraints and their bounds, the exported time. *)
From Coq Require Import QArith Qfield Lqa Bool Arith Lia List Setoid.
From Verif Require Import M_Controls S_Controls L_Controls M_Laptime S_Laptime L_Pack L_Pack2 L_Pack4 S_Colloc L_Colloc.
Import ListNotations.
Local Open Scope nat_scope.

Lemma combine_filter_length {A B} (p : A -> bool) (l : list A) (v : list B) : length v = length l ->
  length (filter (fun q => p (fst q)) (combine l v)) = length (filter p l).
Proof.
  revert v. induction l as [|a l IH]; intros [|b v] H; cbn in *; try discriminate; [reflexivity|].
  destruct (p a); cbn; rewrite IH; auto.
Qed.

Lemma restricted_length ib v : length v = length ib -> length (restricted_quantities ib v) = n_restricted ib.
Proof. intros H. unfold restricted_quantities, n_restricted. rewrite map_length. apply combine_filter_length. exact H. Qed.

Lemma wr_some {A} (vs x0 : list A) : length vs <= length x0 -> exists cv, wr vs (0, x0) = Ok cv.
Proof. intros H. unfold wr. cbn. destruct (Nat.leb_spec (length vs) (length x0)); [eauto|lia]. Qed.

Section Total.
Context (m : car) (sigma : Q) (s : list Q) (cs : list control_variable) (ib : list integral_bound).
Context (direct : bool) (ins : list (list Q)) (evs : list evaluation).
Context (F : facts direct m (length s) ins cs) (E : evaluations_ok m ib s evs) (C : car_ok m).

Notation els closed := (elements closed (track_length m) s).
Notation values := (el_values m sigma cs direct evs).

Lemma elements_length closed : length (els closed) = n_elements closed (length s).
Proof.
  pose proof (f_n _ _ _ _ _ F) as Hn. unfold elements, inner_elements. rewrite app_length, map_length, seq_length.
  destruct closed; cbn; lia.
Qed.

Lemma values_length closed :
  length (flat_map values (els closed)) + n_restricted ib = n_constraints direct closed m (length s) cs ib.
Proof.
  rewrite (flat_map_length_const _ _ (n_inputs m - 1 + n_extra m + (if direct then 0 else count_full cs))).
  - rewrite elements_length. unfold n_constraints. lia.
  - intros e _. apply (el_values_length m sigma s cs direct ins evs F e C).
Qed.

(** what the code adds for the controls *)
Definition penalty (closed : bool) : Q :=
  if direct then full_sum cs (slope_penalty (els closed))
  else (full_sum cs (rate_penalty (els closed)) +
        full_sum cs (fun c => sum (fun e => (1 # 2) * c_dissipation c * (rate c 0 * rate c 0 - rate c (el_l e) * rate c (el_l e)) * el_ds e)
                                  (inner_elements s)))%Q.

Definition swapped (e : element) : element := MkEl (el_r e) (el_l e) (el_ds e).
Definition code_elements (closed : bool) : list element :=
  inner_elements s ++ (if closed then [swapped (closing_element (track_length m) s)] else []).

Lemma fg_total closed integ : integ = true \/ n_restricted ib = 0 ->
  exists obj ints,
    fg_compute m sigma s cs ib direct closed integ evs =
      Ok (obj, ((n_constraints direct closed m (length s) cs ib, flat_map values (els closed) ++ restricted_quantities ib ints), ints)) /\
    (obj == quadrature sigma (dt_at m evs) (els closed) + penalty closed)%Q /\
    length ints = length ib /\
    forall j, (nth j ints 0 == if integ then quadrature sigma (integrand_at evs j) (code_elements closed) else 0)%Q.
Proof.
  intros Hint. set (nc := n_constraints direct closed m (length s) cs ib).
  pose proof (f_n _ _ _ _ _ F) as Hn.
  pose proof (does_inner_loop m sigma s cs ib direct ins evs F E integ) as D1.
  pose proof (does_value_loop m s cs direct ins F) as D2.
  pose proof (does_closing m sigma s cs ib direct ins evs F E closed integ) as D3. cbv zeta in D3.
  pose proof (does_bind _ _ _ _ _ _ _ _ D1 (does_bind _ _ _ _ _ _ _ _ D2 D3)) as D. clear D1 D2 D3. cbn [app] in D.
  set (e0 := closing_element (track_length m) s) in *.
  set (vs := flat_map values (els closed)).
  assert (Evs : flat_map values (inner_elements s) ++ (if closed then values e0 else []) = vs).
  { unfold vs, elements. fold e0. destruct closed.
    - rewrite flat_map_app_r. cbn. rewrite app_nil_r. reflexivity.
    - rewrite !app_nil_r. reflexivity. }
  pose proof (values_length closed) as Hvl. fold vs nc in Hvl.
  destruct (wr_some vs (repeat 0%Q nc)) as [cv1 Ecv1]; [rewrite repeat_length; lia|].
  assert (Hv0 : in_vec (0, repeat 0%Q nc)) by (unfold in_vec; cbn; lia).
  assert (Hwr : wr (flat_map values (inner_elements s) ++ (if closed then values e0 else [])) (0, repeat 0%Q nc) = Ok cv1).
  { rewrite Evs. exact Ecv1. }
  destruct (D 0%Q (0, repeat 0%Q nc) (map (fun _ => 0%Q) ib) Hv0 cv1 Hwr) as (obj1 & Ef & Qf). clear D Hwr.
  match type of Ef with _ = Ok (_, (_, ?i)) => set (ints := i) in * end.
  (* the integral quantities *)
  assert (Hints : length ints = length ib /\ forall j, (nth j ints 0 == if integ then quadrature sigma (integrand_at evs j) (code_elements closed) else 0)%Q).
  { assert (Z : forall j, nth j (map (fun _ => 0%Q) ib) 0%Q = 0%Q).
    { intros j. clear. revert j. induction ib; intros [|j]; cbn; auto. }
    destruct integ.
    - destruct (fold_contributions m sigma s ib evs E (inner_elements s) el_ds el_l el_r (map (fun _ => 0%Q) ib)) as [L V].
      + apply map_length.
      + intros e He. destruct (inner_ends s e He) as ((? & ?) & _). auto.
      + assert (Hi : ints = if closed
          then vadd (fold_left (fun acc e => vadd acc (contribution sigma evs (el_ds e) (el_l e) (el_r e))) (inner_elements s) (map (fun _ => 0%Q) ib))
                    (contribution sigma evs (el_ds e0) (el_r e0) (el_l e0))
          else fold_left (fun acc e => vadd acc (contribution sigma evs (el_ds e) (el_l e) (el_r e))) (inner_elements s) (map (fun _ => 0%Q) ib))
          by reflexivity. rewrite Hi. clear Hi.
        unfold code_elements, quadrature. fold e0. destruct closed.
        * destruct (closing_ends s (track_length m) Hn) as [Hl Hr]. fold e0 in Hl, Hr.
          destruct (contribution_spec m sigma s ib evs E (el_ds e0) (el_r e0) (el_l e0) Hr Hl) as [Lc Vc].
          split; [rewrite vadd_length; congruence|]. intros j. rewrite vadd_nth by congruence. rewrite V, Vc, Z, sum_app. cbn. ring.
        * split; [exact L|]. intros j. rewrite V, Z, app_nil_r. ring.
    - assert (Hi : ints = map (fun _ => 0%Q) ib) by (destruct closed; reflexivity). rewrite Hi.
      split; [apply map_length|]. intros j. rewrite Z. reflexivity. }
  destruct Hints as [Hil Hiv].
  (* the restricted quantities *)
  pose proof (restricted_length ib ints Hil) as Hrl.
  assert (Hfull : wr (restricted_quantities ib ints) cv1 = Ok (nc, vs ++ restricted_quantities ib ints)).
  { assert (H : bind (wr vs (0, repeat 0%Q nc)) (wr (restricted_quantities ib ints)) = Ok (nc, vs ++ restricted_quantities ib ints)).
    { rewrite wr_app by exact Hv0. rewrite wr_full.
      - rewrite app_length, Hrl, Hvl. reflexivity.
      - rewrite app_length, Hrl, Hvl, repeat_length. reflexivity. }
    rewrite Ecv1 in H. exact H. }
  assert (Hv1 : in_vec cv1) by (exact (wr_in_vec _ _ _ Hv0 Ecv1)).
  assert (Hlast : exists obj2, (if integ then for_each (restricted_quantities ib ints) put_fg (obj1, (cv1, ints)) else Ok (obj1, (cv1, ints)))
     = Ok (obj2, ((nc, vs ++ restricted_quantities ib ints), ints)) /\ (obj2 == obj1)%Q).
  { destruct integ.
    - assert (Dr : does (restricted_quantities ib ints) 0 (fun i => i) (for_each (restricted_quantities ib ints) put_fg)).
      { refine (does_each _ _ (fun v => [v]) (fun _ => 0%Q) _ _ _ _ _).
        - intros v _. apply does_put.
        - clear. induction (restricted_quantities ib ints); cbn; congruence.
        - apply sum_zero. reflexivity. }
      destruct (Dr obj1 cv1 ints Hv1 _ Hfull) as (o2 & Eo & Qo). exists o2. split; [exact Eo|]. rewrite Qo. ring.
    - destruct Hint as [?|Hz]; [discriminate|]. exists obj1. split; [|reflexivity].
      rewrite Hz in Hrl. destruct (restricted_quantities ib ints); [|discriminate]. rewrite wr_nil in Hfull by exact Hv1.
      injection Hfull as Hc. rewrite Hc. reflexivity. }
  destruct Hlast as (obj2 & El & Ql).
  exists obj2, ints. split; [|split; [|split; [exact Hil|exact Hiv]]].
  - unfold fg_compute. cbv zeta. fold nc.
    match goal with |- bind ?I _ = _ => match type of Ef with bind ?I' _ = _ => change I with I' end end.
    apply bind_ok in Ef. destruct Ef as (st1 & E1 & Ef). rewrite E1. cbn [bind].
    apply bind_ok in Ef. destruct Ef as (st2 & E2 & Ef). rewrite E2. cbn [bind].
    rewrite Ef. cbn [bind snd]. exact El.
  - rewrite Ql, Qf. unfold penalty, quadrature, elements. fold e0. fold (time_rate m sigma evs).
    assert (Hclosed : (sum (time_rate m sigma evs) (inner_elements s ++ (if closed then [e0] else [])) ==
       sum (time_rate m sigma evs) (inner_elements s) + (if closed then time_rate m sigma evs e0 else 0))%Q).
    { rewrite sum_app. destruct closed; cbn; ring. }
    change (fun e : element => (el_ds e * ((1 - sigma) * dt_at m evs (el_l e) + sigma * dt_at m evs (el_r e)))%Q) with (time_rate m sigma evs).
    rewrite Hclosed. unfold code_rate_penalty.
    assert (Hd : direct = true \/ direct = false) by (destruct direct; auto). destruct Hd as [Hd|Hd]; rewrite Hd; cbv iota.
    + assert (Hp : (full_sum cs (slope_penalty (inner_elements s ++ (if closed then [e0] else []))) ==
         sum (fun c => sum (fun e => pen_value (el_ds e) (el_l e) (el_r e) c) (inner_elements s)) cs +
         (if closed then sum (pen_value (el_ds e0) (el_l e0) (el_r e0)) cs else 0))%Q).
      { unfold full_sum. destruct closed.
        - rewrite <- sum_plus. apply sum_ext. intros c _. unfold pen_value, slope_penalty.
          destruct (kind_eqb (c_kind c) FULL_MESH).
          + rewrite sum_app. cbn. ring.
          + rewrite sum_zero by reflexivity. ring.
        - rewrite Qplus_0_r. apply sum_ext. intros c _. unfold pen_value, slope_penalty. rewrite app_nil_r.
          destruct (kind_eqb (c_kind c) FULL_MESH); [reflexivity|]. symmetry. apply sum_zero. reflexivity. }
      rewrite Hp, (sum_zero (fun _ : element => 0%Q)) by reflexivity. destruct closed; ring.
    + assert (Hp : (full_sum cs (rate_penalty (inner_elements s ++ (if closed then [e0] else []))) +
         full_sum cs (fun c => sum (fun e => (1 # 2) * c_dissipation c * (rate c 0 * rate c 0 - rate c (el_l e) * rate c (el_l e)) * el_ds e) (inner_elements s)) ==
         sum (fun e => sum (pen_rate (el_ds e) 0 (el_r e)) cs) (inner_elements s) +
         (if closed then sum (pen_rate (el_ds e0) (length s - 1) (el_r e0)) cs else 0))%Q).
      { rewrite (sum_swap (fun e c => pen_rate (el_ds e) 0 (el_r e) c)). unfold full_sum.
        assert (Hone : forall c, (sum (fun e => pen_rate (el_ds e) 0 (el_r e) c) (inner_elements s) ==
           if kind_eqb (c_kind c) FULL_MESH then rate_penalty (inner_elements s) c +
             sum (fun e => (1 # 2) * c_dissipation c * (rate c 0 * rate c 0 - rate c (el_l e) * rate c (el_l e)) * el_ds e) (inner_elements s)
           else 0)%Q).
        { intros c. unfold pen_rate, rate_penalty. destruct (kind_eqb (c_kind c) FULL_MESH).
          - rewrite <- sum_plus. apply sum_ext. intros e _. ring.
          - apply sum_zero. reflexivity. }
        destruct closed.
        - rewrite <- !sum_plus. apply sum_ext. intros c _. rewrite Hone. unfold pen_rate, rate_penalty.
          destruct (kind_eqb (c_kind c) FULL_MESH); [|ring]. rewrite sum_app. cbn. ring.
        - rewrite Qplus_0_r, <- !sum_plus. apply sum_ext. intros c _. rewrite Hone, app_nil_r.
          destruct (kind_eqb (c_kind c) FULL_MESH); ring. }
      rewrite Hp. destruct closed; ring.
Qed.

(** ** Bounds of the constraints *)
Definition el_bounds (e : element) : list (Q * Q) :=
  map (fun _ => (0%Q, 0%Q)) (differential_ids m) ++ map (fun _ => (0%Q, 0%Q)) (algebraic_ids m) ++
  map (fun j => (nth j (extra_lb m (nth (el_r e) s 0%Q)) 0%Q, nth j (extra_ub m (nth (el_r e) s 0%Q)) 0%Q)) (seq 0 (n_extra m)) ++
  (if direct then [] else flat_map (full_only (fun _ => (0%Q, 0%Q))) cs).

Lemma flat_map_const_seq {A B} (x : B) (l : list A) a : flat_map (fun _ : nat => [x]) (seq a (length l)) = map (fun _ => x) l.
Proof. revert a. induction l; intros a0; cbn; [reflexivity|]. f_equal. apply IHl. Qed.

Lemma flat_map_seq_nth {A B} (f : A -> list B) (g : nat -> list B) l :
  (forall j a, nth_error l j = Some a -> g j = f a) -> flat_map g (seq 0 (length l)) = flat_map f l.
Proof.
  induction l as [|x l IH] using rev_ind; intros H; [reflexivity|].
  rewrite app_length. cbn [length]. rewrite Nat.add_1_r, seq_S, !flat_map_app_r. f_equal.
  - apply IH. intros j a Ej. apply H. rewrite nth_error_snoc; [exact Ej|]. apply nth_error_Some. congruence.
  - cbn. rewrite !app_nil_r. apply H. rewrite nth_error_app2, Nat.sub_diag by lia. reflexivity.
Qed.

Lemma put_bounds_wr e st : in_vec st -> el_r e < length s ->
  put_bounds_element m cs direct (nth (el_r e) s 0%Q) st = wr (el_bounds e) st.
Proof.
  intros Hv Hr. unfold put_bounds_element, el_bounds. destruct C as (_ & Hlb & Hub).
  rewrite (for_range_wr 0 (length (differential_ids m)) _ (fun _ => [(0%Q, 0%Q)])) by (auto; intros; apply put_wr).
  rewrite <- wr_app by exact Hv. rewrite Nat.sub_0_r, flat_map_const_seq. apply wr_bind_in_vec; [exact Hv|]. intros st1 Hv1.
  rewrite (for_range_wr 0 (length (algebraic_ids m)) _ (fun _ => [(0%Q, 0%Q)])) by (auto; intros; apply put_wr).
  rewrite <- wr_app by exact Hv1. rewrite Nat.sub_0_r, flat_map_const_seq. apply wr_bind_in_vec; [exact Hv1|]. intros st2 Hv2.
  rewrite (for_range_wr 0 (n_extra m) _ (fun j => [(nth j (extra_lb m (nth (el_r e) s 0%Q)) 0%Q, nth j (extra_ub m (nth (el_r e) s 0%Q)) 0%Q)])).
  3:{ intros j st3 Hj Hv3. rewrite (rd_nth (extra_lb m (nth (el_r e) s 0%Q)) j 0%Q) by (rewrite Hlb; lia).
      rewrite (rd_nth (extra_ub m (nth (el_r e) s 0%Q)) j 0%Q) by (rewrite Hub; lia). cbn [bind]. apply put_wr. }
  2:exact Hv2.
  rewrite <- wr_app by exact Hv2. rewrite Nat.sub_0_r, flat_map_single. apply wr_bind_in_vec; [exact Hv2|]. intros st3 Hv3.
  assert (Hd : direct = true \/ direct = false) by (destruct direct; auto). destruct Hd as [Hd|Hd]; rewrite Hd; [symmetry; apply wr_nil; exact Hv3|].
  pose proof (f_cs _ _ _ _ _ F) as Hl.
  rewrite (for_range_wr 0 (n_controls m) _ (fun j => match nth_error cs j with Some c => full_only (fun _ => (0%Q, 0%Q)) c | None => [] end)).
  - rewrite Nat.sub_0_r, <- Hl. f_equal. apply flat_map_seq_nth. intros j a ->. reflexivity.
  - exact Hv3.
  - intros j st4 Hj Hv4. destruct (rd_ok cs j) as (c & Ec & ->); [lia|]. cbn [bind]. rewrite Ec. unfold full_only.
    destruct (kind_eqb (c_kind c) FULL_MESH); [apply put_wr|symmetry; apply wr_nil; exact Hv4].
Qed.

Definition integral_bounds : list (Q * Q) := map (fun b => (ib_lower b, ib_upper b)) (filter ib_restrict ib).

Lemma bounds_length closed :
  length (flat_map el_bounds (els closed) ++ integral_bounds) = n_constraints direct closed m (length s) cs ib.
Proof.
  rewrite app_length, (flat_map_length_const _ _ (n_inputs m - 1 + n_extra m + (if direct then 0 else count_full cs))).
  - rewrite elements_length. unfold n_constraints, integral_bounds. rewrite map_length. unfold n_restricted. lia.
  - intros e _. unfold el_bounds. rewrite !app_length, !map_length, seq_length. destruct C as (Hc & _).
    assert (H : length (if direct then [] else flat_map (full_only (fun _ => (0%Q, 0%Q))) cs) = if direct then 0 else count_full cs).
    { destruct direct; [reflexivity|]. apply length_full_only. }
    rewrite H. lia.
Qed.

Lemma bounds_total closed :
  constraint_bounds m s cs ib direct closed = Ok (flat_map el_bounds (els closed) ++ integral_bounds).
Proof.
  unfold constraint_bounds. cbv zeta. set (nc := n_constraints direct closed m (length s) cs ib).
  pose proof (f_n _ _ _ _ _ F) as Hn.
  assert (Hv0 : in_vec (0, repeat (0%Q, 0%Q) nc)) by (unfold in_vec; cbn; lia).
  set (x0 := (0, repeat (0%Q, 0%Q) nc)) in *.
  rewrite (for_range_wr 1 (length s) _ (fun i => el_bounds (MkEl (i - 1) i (nth i s 0 - nth (i - 1) s 0)%Q))).
  3:{ intros i st Hi Hv. rewrite (rd_nth s i 0%Q) by lia. cbn [bind].
      apply (put_bounds_wr (MkEl (i - 1) i (nth i s 0 - nth (i - 1) s 0)%Q)); [exact Hv|cbn; lia]. }
  2:exact Hv0.
  set (w1 := flat_map _ (seq 1 (length s - 1))).
  assert (Hw1 : w1 = flat_map el_bounds (inner_elements s)).
  { unfold w1, inner_elements. rewrite !flat_map_concat_map, map_map. reflexivity. }
  assert (Hmid : forall st, in_vec st -> (if closed then bind (rd s 0) (fun s0 => put_bounds_element m cs direct s0 st) else Ok st)
     = wr (if closed then el_bounds (closing_element (track_length m) s) else []) st).
  { intros st Hv. destruct closed; [|symmetry; apply wr_nil; exact Hv].
    rewrite (rd_nth s 0 0%Q) by lia. cbn [bind]. apply (put_bounds_wr (closing_element (track_length m) s)); [exact Hv|cbn; lia]. }
  assert (Hend : forall st, in_vec st -> for_each ib (fun q st => if ib_restrict q then put (ib_lower q, ib_upper q) st else Ok st) st
     = wr integral_bounds st).
  { intros st Hv. rewrite (for_each_wr ib _ (fun q => if ib_restrict q then [(ib_lower q, ib_upper q)] else [])); [|exact Hv|].
    - f_equal. unfold integral_bounds. clear. induction ib as [|b l IH]; [reflexivity|]. cbn. destruct (ib_restrict b); cbn; rewrite IH; reflexivity.
    - intros b st' _ Hv'. destruct (ib_restrict b); [apply put_wr|symmetry; apply wr_nil; exact Hv']. }
  assert (Hall : bind (wr w1 x0) (fun st => bind (if closed then bind (rd s 0) (fun s0 => put_bounds_element m cs direct s0 st) else Ok st)
      (fun st => for_each ib (fun q st => if ib_restrict q then put (ib_lower q, ib_upper q) st else Ok st) st))
     = wr (flat_map el_bounds (els closed) ++ integral_bounds) x0).
  { assert (Ew : flat_map el_bounds (els closed) ++ integral_bounds
       = w1 ++ ((if closed then el_bounds (closing_element (track_length m) s) else []) ++ integral_bounds)).
    { unfold elements. rewrite flat_map_app_r, Hw1, <- app_assoc. do 2 f_equal. destruct closed; cbn; [apply app_nil_r|reflexivity]. }
    rewrite Ew, <- wr_app by exact Hv0. apply wr_bind_in_vec; [exact Hv0|]. intros st1 Hv1.
    rewrite Hmid, <- wr_app by exact Hv1. apply wr_bind_in_vec; [exact Hv1|]. intros st2 Hv2. apply Hend. exact Hv2. }
  unfold x0 in Hall at 2. rewrite wr_full in Hall by (rewrite repeat_length; apply bounds_length).
  apply bind_ok in Hall. destruct Hall as (st1 & E1 & Hall). rewrite E1. cbn [bind].
  apply bind_ok in Hall. destruct Hall as (st2 & E2 & Hall). rewrite E2. cbn [bind].
  rewrite Hall. cbn [bind fst snd]. rewrite bounds_length. fold nc. rewrite Nat.eqb_refl. reflexivity.
Qed.

(** ** Feasibility *)
Lemma feasible_Forall2 bs cons : length bs = length cons -> feasible bs cons <-> Forall2 between bs cons.
Proof.
  unfold feasible. revert cons. induction bs as [|b bs IH]; intros [|c cons] Hl; cbn in Hl; try discriminate.
  - split; [constructor|]. intros _ k Hk. cbn in Hk. lia.
  - split.
    + intros H. constructor; [apply (H 0); cbn; lia|]. apply IH; [lia|]. intros k Hk. apply (H (S k)). cbn. lia.
    + intros H. inversion H; subst. intros [|k] Hk; cbn in *; [assumption|]. apply IH; [lia|assumption|lia].
Qed.

Lemma Forall2_app_iff {A B} (R : A -> B -> Prop) a1 a2 b1 b2 : length a1 = length b1 ->
  Forall2 R (a1 ++ a2) (b1 ++ b2) <-> Forall2 R a1 b1 /\ Forall2 R a2 b2.
Proof.
  revert b1. induction a1 as [|x a1 IH]; intros [|y b1] H; cbn in *; try discriminate.
  - split; [auto|tauto].
  - split.
    + intros K. inversion K; subst. apply IH in H5; [|lia]. destruct H5. split; [constructor|]; assumption.
    + intros [K1 K2]. inversion K1; subst. constructor; [assumption|]. apply IH; [lia|auto].
Qed.

Lemma Forall2_flat_map {A B D} (R : B -> D -> Prop) (f : A -> list B) (g : A -> list D) l :
  (forall a, In a l -> length (f a) = length (g a)) ->
  Forall2 R (flat_map f l) (flat_map g l) <-> forall a, In a l -> Forall2 R (f a) (g a).
Proof.
  induction l as [|a l IH]; intros H; cbn.
  - split; [intros _ a []|constructor].
  - rewrite Forall2_app_iff by (apply H; left; reflexivity). rewrite IH by (intros; apply H; right; assumption).
    split.
    + intros [H1 H2] b [<-|Hb]; auto.
    + intros K. split; auto.
Qed.

Lemma Forall2_map {A B D} (R : B -> D -> Prop) (f : A -> B) (g : A -> D) l :
  Forall2 R (map f l) (map g l) <-> forall a, In a l -> R (f a) (g a).
Proof.
  induction l as [|a l IH]; cbn.
  - split; [intros _ a []|constructor].
  - split.
    + intros K. inversion K; subst. intros b [<-|Hb]; [assumption|]. apply IH; assumption.
    + intros K. constructor; [auto|]. apply IH. auto.
Qed.

Lemma between_zero v : between (0%Q, 0%Q) v <-> (v == 0)%Q.
Proof. unfold between. cbn. split; [intros []; apply Qle_antisym; assumption|]. intros H. rewrite H. split; apply Qle_refl. Qed.

Lemma Qminus_zero x y : (x - y == 0)%Q <-> (x == y)%Q.
Proof. split; intros H; [rewrite <- (Qplus_0_r y), <- H; ring|rewrite H; ring]. Qed.

Lemma element_feasible e : ends_ok s e -> ~ (dt_at m evs (el_r e) == 0)%Q ->
  Forall2 between (el_bounds e) (values e) <-> element_satisfied m sigma s cs direct evs e.
Proof.
  intros [Hl Hr] Hdt. unfold el_bounds, el_values, element_satisfied.
  rewrite !Forall2_app_iff by (rewrite !map_length; reflexivity). rewrite !Forall2_map.
  assert (H1 : forall id, between (0%Q, 0%Q) (residual sigma evs id e) <->
    (state_at evs id (el_r e) - state_at evs id (el_l e) == el_ds e * ((1 - sigma) * dstate_at evs id (el_l e) + sigma * dstate_at evs id (el_r e)))%Q).
  { intros id. rewrite between_zero. apply Qminus_zero. }
  assert (H2 : forall id, between (0%Q, 0%Q) (dstate_at evs id (el_r e) / dt_at m evs (el_r e))%Q <-> (dstate_at evs id (el_r e) == 0)%Q).
  { intros id. rewrite between_zero. split; intros H.
    - rewrite <- (Qmult_div_r (dstate_at evs id (el_r e)) (dt_at m evs (el_r e))) by exact Hdt. rewrite H. ring.
    - rewrite H. unfold Qdiv. ring. }
  assert (H4 : Forall2 between (if direct then [] else flat_map (full_only (fun _ => (0%Q, 0%Q))) cs)
       (if direct then [] else flat_map (full_only (rate_residual m sigma evs e)) cs) <->
     (direct = false -> forall c, In c cs -> c_kind c = FULL_MESH ->
     value c (el_r e) - value c (el_l e)
     == el_ds e * ((1 - sigma) * rate c (el_l e) * dt_at m evs (el_l e) + sigma * rate c (el_r e) * dt_at m evs (el_r e)))%Q).
  { assert (Hd : direct = true \/ direct = false) by (destruct direct; auto). destruct Hd as [Hd|Hd]; rewrite Hd.
    - split; [discriminate|constructor].
    - rewrite Forall2_flat_map by (intros c _; unfold full_only; destruct (kind_eqb _ _); reflexivity).
      split.
      + intros H _ c Hc K. specialize (H c Hc). unfold full_only in H. rewrite K in H. cbn in H.
        inversion H as [|? ? ? ? Hb _]; subst. apply between_zero in Hb. apply Qminus_zero. exact Hb.
      + intros H c Hc. unfold full_only. destruct (kind_eqb (c_kind c) FULL_MESH) eqn:K; [|constructor].
        apply kind_eqb_spec in K. constructor; [|constructor]. apply between_zero, Qminus_zero. apply H; auto. }
  rewrite H4. split.
  - intros (A1 & A2 & A3 & A4). split; [intros id Hid; apply H1; auto|]. split; [intros id Hid; apply H2; auto|].
    split; [intros j Hj; apply A3; apply in_seq; lia|exact A4].
  - intros (A1 & A2 & A3 & A4). split; [intros id Hid; apply H1; auto|]. split; [intros id Hid; apply H2; auto|].
    split; [intros j Hj; apply A3; apply in_seq in Hj; lia|exact A4].
Qed.

Lemma integrals_feasible ints : length ints = length ib ->
  Forall2 between integral_bounds (restricted_quantities ib ints) <-> integrals_satisfied ib ints.
Proof.
  unfold integral_bounds, restricted_quantities, integrals_satisfied. clear F E C.
  revert ints. induction ib as [|b l IH]; intros [|v ints] Hl; cbn in Hl; try discriminate.
  - cbn. split; [intros _ [|j] b H; discriminate|constructor].
  - cbn. specialize (IH ints ltac:(lia)). destruct (ib_restrict b) eqn:Rb; cbn.
    + split.
      * intros H. inversion H; subst. intros [|j] b' Hb Hr; cbn in *; [injection Hb as <-; assumption|]. apply IH with (j := j); assumption.
      * intros H. constructor; [apply (H 0 b eq_refl Rb)|]. apply IH. intros j b' Hb Hr. apply (H (S j) b' Hb Hr).
    + rewrite IH. split.
      * intros H [|j] b' Hb Hr; cbn in *; [congruence|]. apply H; assumption.
      * intros H j b' Hb Hr. apply (H (S j) b' Hb Hr).
Qed.

Lemma element_ends closed e : In e (els closed) -> ends_ok s e.
Proof.
  unfold elements. rewrite in_app_iff. intros [H|H]; [apply inner_ends; exact H|].
  destruct closed; [|destruct H]. destruct H as [<-|[]]. apply closing_ends. apply (f_n _ _ _ _ _ F).
Qed.

Lemma constraints_feasible closed : (forall i, i < length s -> ~ (dt_at m evs i == 0)%Q) ->
  exists obj cons ints bs,
    fg_call m sigma s cs ib direct closed evs = Ok (obj, ((n_constraints direct closed m (length s) cs ib, cons), ints)) /\
    constraint_bounds m s cs ib direct closed = Ok bs /\
    length cons = n_constraints direct closed m (length s) cs ib /\ length bs = n_constraints direct closed m (length s) cs ib /\
    (feasible bs cons <->
     (forall e, In e (els closed) -> element_satisfied m sigma s cs direct evs e) /\ integrals_satisfied ib ints).
Proof.
  intros Hdt. unfold fg_call.
  assert (Hint : (0 <? n_restricted ib) = true \/ n_restricted ib = 0) by (destruct (n_restricted ib); auto).
  destruct (fg_total closed _ Hint) as (obj & ints & Ef & _ & Hil & _).
  exists obj, (flat_map values (els closed) ++ restricted_quantities ib ints), ints, (flat_map el_bounds (els closed) ++ integral_bounds).
  split; [exact Ef|]. split; [apply bounds_total|].
  pose proof (values_length closed) as Hvl. pose proof (bounds_length closed) as Hbl. pose proof (restricted_length ib ints Hil) as Hrl.
  split; [rewrite app_length; lia|]. split; [exact Hbl|].
  rewrite feasible_Forall2 by (rewrite Hbl, app_length; lia).
  assert (Hel : forall e, length (el_bounds e) = length (values e)).
  { intros e. rewrite (el_values_length m sigma s cs direct ins evs F e C). unfold el_bounds. rewrite !app_length, !map_length, seq_length.
    destruct C as (Hc & _).
    assert (H : length (if direct then [] else flat_map (full_only (fun _ => (0%Q, 0%Q))) cs) = if direct then 0 else count_full cs).
    { destruct direct; [reflexivity|]. apply length_full_only. }
    rewrite H. lia. }
  rewrite Forall2_app_iff.
  2:{ clear -Hel. induction (els closed); [reflexivity|]. cbn. rewrite !app_length, Hel, IHl. reflexivity. }
  rewrite Forall2_flat_map by (intros; apply Hel). rewrite integrals_feasible by exact Hil.
  split; intros [H1 H2]; (split; [|exact H2]); intros e He; pose proof (element_ends closed e He) as Hends;
    apply element_feasible; auto; apply Hdt; apply Hends.
Qed.

(** ** The exported time *)
Lemma export_spec closed t0 : exists times lap, export_time m sigma s closed evs t0 = Ok (times, lap) /\
  length times = length s /\
  (forall i, (i < length s)%nat -> nth i times 0 == t0 + quadrature sigma (dt_at m evs) (firstn i (inner_elements s)))%Q /\
  (lap == t0 + quadrature sigma (dt_at m evs) (els closed))%Q.
Proof.
  pose proof (f_n _ _ _ _ _ F) as Hn. unfold export_time. cbv zeta.
  assert (Ht : In (st_time m) (st_time m :: differential_ids m ++ algebraic_ids m)) by (left; reflexivity).
  rewrite (nth_pt evs 0) by (rewrite (proj1 E); lia). cbn [bind].
  destruct (rd_state m s ib evs E 0 (st_time m) ltac:(lia) Ht) as [_ ->]. cbn [bind]. fold (dt_at m evs 0).
  set (body := fun i (st : list Q * Q) => let '(times, prev) := st in
          bind (rd evs i) (fun e => bind (rd (e_dstates e) (st_time m)) (fun dt =>
          bind (rd times (i - 1)) (fun tp => bind (rd s i) (fun si => bind (rd s (i - 1)) (fun sp =>
          Ok (times ++ [(tp + (si - sp) * (sigma * dt + (1 - sigma) * prev))%Q], dt))))))).
  set (mk := fun i => MkEl (i - 1) i (nth i s 0 - nth (i - 1) s 0)%Q).
  assert (Hloop : forall k a times, a + k = length s -> 1 <= a -> length times = a ->
     (forall i, (i < a)%nat -> nth i times 0 == t0 + quadrature sigma (dt_at m evs) (map mk (seq 1 i)))%Q ->
     exists times' , loop k a body (times, dt_at m evs (a - 1)) = Ok (times', dt_at m evs (length s - 1)) /\ length times' = length s /\
     (forall i, (i < length s)%nat -> nth i times' 0 == t0 + quadrature sigma (dt_at m evs) (map mk (seq 1 i)))%Q).
  { induction k as [|k IH]; intros a times Ha Hp Hl Hv.
    - exists times. cbn. replace (length s) with a by lia. auto.
    - cbn [loop]. unfold body at 1. rewrite (nth_pt evs a) by (rewrite (proj1 E); lia). cbn [bind].
      destruct (rd_state m s ib evs E a (st_time m) ltac:(lia) Ht) as [_ ->]. cbn [bind]. fold (dt_at m evs a).
      rewrite (rd_nth times (a - 1) 0%Q) by lia. rewrite (rd_nth s a 0%Q), (rd_nth s (a - 1) 0%Q) by lia. cbn [bind].
      specialize (IH (S a)). replace (S a - 1) with a in IH by lia.
      apply IH; [lia|lia|rewrite app_length; cbn; lia|].
      intros i Hi. destruct (Nat.lt_ge_cases i a) as [Hlt|Hge].
      + rewrite app_nth1 by lia. apply Hv. exact Hlt.
      + assert (i = a) by lia. subst i. rewrite app_nth2, Hl, Nat.sub_diag by lia. cbn [nth].
        rewrite (Hv (a - 1)) by lia. replace (seq 1 a) with (seq 1 (a - 1) ++ [a]).
        2:{ destruct a; [lia|]. rewrite seq_S. cbn. rewrite Nat.sub_0_r. reflexivity. }
        unfold quadrature. rewrite map_app, sum_app. cbn. ring. }
  destruct (Hloop (length s - 1) 1 [t0]) as (times & El & Hl & Hv); [lia|lia|reflexivity| |].
  { intros i Hi. assert (i = 0) by lia. subst i. cbn. ring. }
  change (dt_at m evs (1 - 1)) with (dt_at m evs 0) in El.
  unfold for_range. rewrite El. cbn [bind]. rewrite (rd_nth times (length s - 1) 0%Q), (rd_nth s (length s - 1) 0%Q) by lia.
  cbn [bind]. eexists times, _. split; [reflexivity|]. split; [exact Hl|]. split.
  - intros i Hi. rewrite (Hv i Hi). unfold inner_elements. fold mk. rewrite firstn_map.
    replace (firstn i (seq 1 (length s - 1))) with (seq 1 i); [reflexivity|].
    replace (length s - 1) with (i + (length s - 1 - i)) by lia. rewrite seq_app, firstn_app, seq_length.
    rewrite firstn_all2 by (rewrite seq_length; lia). rewrite Nat.sub_diag, firstn_O, app_nil_r. reflexivity.
  - assert (Hlast := Hv (length s - 1) ltac:(lia)). unfold elements, inner_elements. fold mk. destruct closed.
    + rewrite Hlast. unfold quadrature. rewrite sum_app. cbn. ring.
    + rewrite app_nil_r. exact Hlast.
Qed.
End Total.

(** ** Rotation of a closed mesh *)
Lemma inner_elements_cons s0 s1 r : inner_elements (s0 :: s1 :: r) =
  MkEl 0 1 (s1 - s0)%Q :: map (fun e => MkEl (S (el_l e)) (S (el_r e)) (el_ds e)) (inner_elements (s1 :: r)).
Proof.
  unfold inner_elements. cbn [length]. replace (S (S (length r)) - 1) with (S (length r)) by lia.
  cbn [seq map]. f_equal. replace (S (length r) - 1) with (length r) by lia.
  rewrite map_map. rewrite <- seq_shift, map_map. apply map_ext_in. intros i Hi. apply in_seq in Hi. cbn [el_l el_r el_ds].
  destruct i; [lia|]. cbn. rewrite Nat.sub_0_r. reflexivity.
Qed.

(** quadrature along the points of a list *)
Fixpoint along (sigma : Q) (l : list (Q * Q)) : Q :=
  match l with
  | (a, fa) :: (((b, fb) :: _) as l') => ((b - a) * ((1 - sigma) * fa + sigma * fb) + along sigma l')%Q
  | _ => 0%Q
  end.

Lemma along_cons sigma a fa b fb l : along sigma ((a, fa) :: (b, fb) :: l) = ((b - a) * ((1 - sigma) * fa + sigma * fb) + along sigma ((b, fb) :: l))%Q.
Proof. reflexivity. Qed.
Lemma along_one sigma p : along sigma [p] = 0%Q.
Proof. destruct p. reflexivity. Qed.

Lemma quadrature_along sigma nodes : (quadrature sigma (fun i => snd (nth i nodes (0, 0)%Q)) (inner_elements (map fst nodes)) == along sigma nodes)%Q.
Proof.
  induction nodes as [|[a fa] [|[b fb] l] IH]; [reflexivity|reflexivity|].
  cbn [map]. rewrite inner_elements_cons. unfold quadrature in *. cbn [sum]. rewrite sum_map. cbn [el_l el_r el_ds nth snd fst along].
  cbn [map fst] in IH. rewrite <- IH. apply Qplus_comp; [ring|]. apply sum_ext. intros e _. reflexivity.
Qed.

Lemma closed_along sigma L a fa nodes :
  (closed_quadrature sigma L ((a, fa) :: nodes) == along sigma (((a, fa) :: nodes) ++ [(L, fa)]))%Q.
Proof.
  unfold closed_quadrature, elements. set (all := (a, fa) :: nodes).
  unfold quadrature. rewrite sum_app. fold (quadrature sigma (fun i => snd (nth i all (0, 0)%Q)) (inner_elements (map fst all))).
  rewrite quadrature_along. cbn [sum closing_element el_l el_r el_ds]. rewrite map_length.
  assert (H : forall l, l <> [] -> (along sigma (l ++ [(L, fa)]) == along sigma l + (L - fst (nth (length l - 1) l (0, 0)%Q)) *
     ((1 - sigma) * snd (nth (length l - 1) l (0, 0)%Q) + sigma * fa))%Q).
  { induction l as [|[x fx] [|[y fy] l] IH]; [congruence| |].
    - intros _. cbn [app length nth fst snd Nat.sub]; rewrite along_cons, !along_one. ring.
    - intros _. cbn [app]. rewrite ?along_cons. change (((y, fy) :: l) ++ [(L, fa)]) with (((y, fy) :: l) ++ [(L, fa)]) in IH.
      cbn [app] in IH. rewrite IH by discriminate. cbn [length]. replace (S (S (length l)) - 1) with (S (S (length l) - 1)) by lia.
      cbn [nth]. ring. }
  rewrite (H all) by discriminate. change (snd (nth 0 all (0, 0)%Q)) with fa.
  replace (nth (length all - 1) (map fst all) 0%Q) with (fst (nth (length all - 1) all (0, 0)%Q)) by exact (eq_sym (map_nth fst all (0, 0)%Q _)).
  ring.
Qed.

Lemma along_shift sigma c l : (along sigma (map (fun p => (fst p - c, snd p)%Q) l) == along sigma l)%Q.
Proof.
  induction l as [|[a fa] [|[b fb] l] IH]; [reflexivity|reflexivity|].
  cbn [map] in *. cbn [fst snd] in *. rewrite !along_cons, IH. ring.
Qed.

Lemma along_app sigma l p l' : (along sigma (l ++ p :: l') == along sigma (l ++ [p]) + along sigma (p :: l'))%Q.
Proof.
  induction l as [|[a fa] l IH]; [cbn [app]; rewrite along_one; ring|].
  destruct l as [|[b fb] l].
  - destruct p as [p fp]. cbn [app]. rewrite !along_cons, along_one. ring.
  - cbn [app]. rewrite ?along_cons. cbn [app] in IH. rewrite IH. ring.
Qed.

Lemma along_last sigma l x y f : (x == y)%Q -> (along sigma (l ++ [(x, f)]) == along sigma (l ++ [(y, f)]))%Q.
Proof.
  intros H. induction l as [|[a fa] l IH]; [reflexivity|]. destruct l as [|[b fb] l].
  - cbn. rewrite H. reflexivity.
  - cbn [app]. rewrite ?along_cons. cbn [app] in IH. rewrite IH. reflexivity.
Qed.

Lemma rotation sigma L nodes : 2 <= length nodes -> (fst (nth 0 nodes (0, 0)) == 0)%Q ->
  (closed_quadrature sigma L (next_start L nodes) == closed_quadrature sigma L nodes)%Q /\
  length (next_start L nodes) = length nodes /\ (fst (nth 0 (next_start L nodes) (0, 0)) == 0)%Q.
Proof.
  destruct nodes as [|[s0 f0] [|[s1 f1] r]]; cbn [length]; [lia|lia|]. intros _ Hz. cbn [nth fst] in Hz.
  split; [|split].
  - unfold next_start. cbn [map app fst snd]. rewrite !closed_along. cbn [app].
    set (l1 := ((s1 - s1)%Q, f1) :: map (fun p => (fst p - s1, snd p)%Q) r).
    change ((((s1 - s1)%Q, f1) :: (map (fun p => (fst p - s1, snd p)%Q) r ++ [((s0 + L - s1)%Q, f0)]) ++ [(L, f1)]))
      with ((l1 ++ [((s0 + L - s1)%Q, f0)]) ++ [(L, f1)]).
    rewrite <- app_assoc. cbn [app]. rewrite along_app.
    assert (E1 : (along sigma (l1 ++ [((s0 + L - s1)%Q, f0)]) == along sigma (((s1, f1) :: r) ++ [((s0 + L)%Q, f0)]))%Q).
    { rewrite <- (along_shift sigma s1 (((s1, f1) :: r) ++ [((s0 + L)%Q, f0)])). rewrite map_app. reflexivity. }
    rewrite E1. rewrite (along_last sigma ((s1, f1) :: r) (s0 + L)%Q L f0) by (rewrite Hz; ring).
    cbn [app]. rewrite !along_cons, ?along_one, Hz. ring.
  - unfold next_start. rewrite app_length, map_length. cbn. lia.
  - unfold next_start. cbn. ring.
Qed.

Fixpoint nth_start (L : Q) (k : nat) (nodes : list (Q * Q)) : list (Q * Q) :=
  match k with 0 => nodes | S k' => next_start L (nth_start L k' nodes) end.

Lemma rotations sigma L k nodes : 2 <= length nodes -> (fst (nth 0 nodes (0, 0)) == 0)%Q ->
  (closed_quadrature sigma L (nth_start L k nodes) == closed_quadrature sigma L nodes)%Q.
Proof.
  intros Hl Hz.
  assert (H : (closed_quadrature sigma L (nth_start L k nodes) == closed_quadrature sigma L nodes)%Q /\
     length (nth_start L k nodes) = length nodes /\ (fst (nth 0 (nth_start L k nodes) (0, 0)) == 0)%Q).
  { induction k as [|k (IH1 & IH2 & IH3)]; [repeat split; auto; reflexivity|].
    cbn [nth_start]. destruct (rotation sigma L (nth_start L k nodes)) as (R1 & R2 & R3); [lia|exact IH3|].
    split; [rewrite R1; exact IH1|]. split; [lia|exact R3]. }
  apply H.
Qed.
