(** Proofs about the declared parameters and the four representations of an f1. *)
From Coq Require Import String QArith Qminmax Bool Arith Lia Lqa List.
From Verif Require Import M_Param S_Param L_Param M_Tree S_Tree L_Tree.
Import ListNotations.
Local Open Scope string_scope.

(** *** Declared parameters that are always evaluable *)
Definition wf_par (p : parameter) : Prop :=
  length (par_values p) = 1%nat \/ well_formed_mesh (par_aliases p) (par_values p) (par_mesh p).

Lemma eval_total : forall p s, wf_par p -> exists v, par_eval p s = Some v.
Proof.
  intros [path al vals mesh] s [H|H]; cbn in H.
  - unfold par_eval. cbn [par_values]. rewrite H. cbn. destruct vals; [discriminate|]. eexists; reflexivity.
  - destruct (constructor_accepts path al vals mesh) as [_ K]. destruct (K H) as [p Hp].
    apply constructor_result in Hp as Hp'. subst p.
    assert (exists lo hi, forall v, In v vals -> lo <= v /\ v <= hi)%Q as (lo & hi & B).
    { clear. induction vals as [|v vals (lo & hi & B)]; [exists 0%Q, 0%Q; intros ? []|].
      exists (Qmin lo v), (Qmax hi v). intros w [<-|Hw].
      - split; [apply Q.le_min_r|apply Q.le_max_r].
      - destruct (B w Hw). split.
        + eapply Qle_trans; [apply Q.le_min_l|assumption].
        + eapply Qle_trans; [eassumption|apply Q.le_max_l]. }
    destruct (varying_bounded _ _ _ _ _ s lo hi Hp B) as (v & E & _). exists v. exact E.
Qed.

Lemma eval_constant : forall p s v x, (forall w, In w (par_values p) -> w = v) -> par_eval p s = Some x -> x == v.
Proof.
  intros p s v x H E. unfold par_eval in E.
  destruct (Nat.eqb (length (par_values p)) 1).
  { apply nth_error_In in E. rewrite (H _ E). reflexivity. }
  destruct (Nat.eqb (upper_bound _ _) 0).
  { apply nth_error_In in E. rewrite (H _ E). reflexivity. }
  destruct (Nat.eqb (upper_bound _ _) _).
  { apply nth_error_In in E. rewrite (H _ E). reflexivity. }
  destruct (nth_error (par_mesh p) _) as [[sl il]|]; [|discriminate].
  destruct (nth_error (par_mesh p) _) as [[sr ir]|]; [|discriminate].
  destruct (nth_error (par_values p) il) as [vl|] eqn:E1; [|discriminate].
  destruct (nth_error (par_values p) ir) as [vr|] eqn:E2; [|discriminate].
  apply nth_error_In in E1, E2. rewrite (H _ E1), (H _ E2) in E. injection E as <-. ring.
Qed.

Lemma made_wf : forall c p, call_make c = Some p -> wf_par p /\ par_path p = call_path c.
Proof.
  intros [path al v|path al vs mesh] p H; cbn in *.
  - injection H as <-. split; [left|]; reflexivity.
  - apply constructed in H as [W ->]. split; [right; exact W|reflexivity].
Qed.

Lemma fill_paths : forall ps p v, map par_path (fill_param ps p v) = map par_path ps.
Proof.
  induction ps as [|q ps IH]; cbn; intros; [reflexivity|]. destruct (String.eqb _ _); cbn; [|rewrite IH]; reflexivity.
Qed.
Lemma fill_wf : forall ps p v, Forall wf_par ps -> Forall wf_par (fill_param ps p v).
Proof.
  induction ps as [|q ps IH]; cbn; intros p v H; [constructor|]. inversion H; subst.
  destruct (String.eqb _ _); constructor; auto.
  unfold wf_par, with_values, well_formed_mesh in *. cbn. rewrite map_length. assumption.
Qed.
Lemma fill_value : forall ps p v q, NoDup (map par_path ps) -> In q (fill_param ps p v) -> par_path q = p ->
  forall w, In w (par_values q) -> w = v.
Proof.
  induction ps as [|a ps IH]; cbn; intros p v q N H E w Hw; [destruct H|]. inversion N; subst.
  destruct (String.eqb (par_path a) (par_path q)) eqn:K.
  - destruct H as [<-|H].
    + cbn in Hw. apply in_map_iff in Hw. destruct Hw as (? & ? & _). congruence.
    + exfalso. apply String.eqb_eq in K. apply H2. rewrite K. apply (in_map par_path) in H. exact H.
  - destruct H as [<-|H]; [rewrite String.eqb_refl in K; discriminate|]. eapply IH; eauto.
Qed.

(** *** Evaluation *)
Definition known_b (p : parameter) : bool := existsb (String.eqb (par_path p)) all_paths.
Lemma known_b_in : forall p, known_b p = true <-> In (par_path p) all_paths.
Proof.
  intros p. unfold known_b. rewrite existsb_exists. split.
  - intros (q & H & E). apply String.eqb_eq in E. congruence.
  - intros H. exists (par_path p). split; [exact H|apply String.eqb_refl].
Qed.
Definition value_at (p : parameter) (s : Q) : Q := match par_eval p s with Some v => v | None => 0%Q end.

Definition overwrite_all (kvs : list (string * Q)) (l : list (string * Q)) : list (string * Q) :=
  fold_left (fun l kv => overwrite (fst kv) (snd kv) l) kvs l.
Definition final (kvs : list (string * Q)) (k : string) (x : Q) : Q :=
  fold_left (fun x kv => if String.eqb k (fst kv) then snd kv else x) kvs x.

Lemma overwrite_all_map : forall kvs l, overwrite_all kvs l = map (fun e => (fst e, final kvs (fst e) (snd e))) l.
Proof.
  induction kvs as [|[k v] kvs IH]; intros l; cbn.
  - rewrite <- (map_id l) at 1. apply map_ext. intros [? ?]; reflexivity.
  - unfold overwrite_all in IH. rewrite IH. unfold overwrite. rewrite map_map. apply map_ext.
    intros [k' x]. cbn. destruct (String.eqb k' k); reflexivity.
Qed.
Lemma final_covered : forall kvs k x y, In k (map fst kvs) -> final kvs k x = final kvs k y.
Proof.
  induction kvs as [|[k' v] kvs IH]; cbn; intros k x y H; [destruct H|].
  destruct (String.eqb k k') eqn:E; [reflexivity|]. apply IH. destruct H as [H|H]; [|exact H].
  subst k'. rewrite String.eqb_refl in E. discriminate.
Qed.
Lemma final_other : forall kvs k x, ~ In k (map fst kvs) -> final kvs k x = x.
Proof.
  induction kvs as [|[k' v] kvs IH]; cbn; intros k x H; [reflexivity|].
  destruct (String.eqb k k') eqn:E; [apply String.eqb_eq in E; exfalso; apply H; left; congruence|].
  apply IH. intro. apply H. right. assumption.
Qed.
Lemma final_in : forall kvs k x, In k (map fst kvs) -> In (k, final kvs k x) kvs.
Proof.
  induction kvs as [|[k' v] kvs IH]; cbn; intros k x H; [destruct H|].
  destruct (in_dec string_dec k (map fst kvs)) as [I|I]; [right; apply IH, I|].
  destruct H as [H|H]; [|contradiction]. subst k'. rewrite String.eqb_refl. left. fold (final kvs k v). rewrite final_other by exact I. reflexivity.
Qed.

(** Stored numbers with the declared paths blanked out. *)
Definition masked (D : list string) (l : list (string * Q)) : list (string * Q) :=
  map (fun e => if existsb (String.eqb (fst e)) D then (fst e, 0%Q) else e) l.

Lemma in_b : forall k D, existsb (String.eqb k) D = true <-> In k D.
Proof.
  intros k D. rewrite existsb_exists. split.
  - intros (q & H & E). apply String.eqb_eq in E. congruence.
  - intros H. exists k. split; [exact H|apply String.eqb_refl].
Qed.
Lemma masked_overwrite_in : forall D p v l, In p D -> masked D (overwrite p v l) = masked D l.
Proof.
  intros. unfold masked, overwrite. rewrite map_map. apply map_ext. intros [k x]. cbn.
  destruct (String.eqb k p) eqn:E; [|reflexivity]. cbn. apply String.eqb_eq in E. subst k.
  apply in_b in H. rewrite H. reflexivity.
Qed.
Lemma masked_overwrite : forall D p v l m, masked D l = masked D m ->
  masked D (overwrite p v l) = masked D (overwrite p v m).
Proof.
  intros D p v. unfold masked, overwrite.
  induction l as [|[k x] l IH]; intros [|[k' x'] m] H; cbn in *; try discriminate; [reflexivity|].
  injection H as H1 H2. f_equal; [|apply IH, H2].
  assert (k = k') as ->. { destruct (existsb _ D), (existsb _ D); cbn in *; congruence. }
  destruct (String.eqb k' p); cbn; [reflexivity|]. exact H1.
Qed.
Lemma masked_incl : forall D D' l m, incl D D' -> masked D l = masked D m -> masked D' l = masked D' m.
Proof.
  intros D D'. unfold masked.
  induction l as [|[k x] l IH]; intros [|[k' x'] m] I H; cbn in *; try discriminate; [reflexivity|].
  injection H as H1 H2. f_equal; [|apply IH; assumption].
  assert (k = k') as ->. { destruct (existsb _ D), (existsb _ D); cbn in *; congruence. }
  destruct (existsb (String.eqb k') D') eqn:E; [reflexivity|].
  destruct (existsb (String.eqb k') D) eqn:E2; [|exact H1].
  apply in_b in E2. apply I in E2. apply in_b in E2. congruence.
Qed.
Lemma masked_overwrite_all : forall kvs D l m, D = map fst kvs -> masked D l = masked D m ->
  overwrite_all kvs l = overwrite_all kvs m.
Proof.
  intros kvs D l m HD. rewrite !overwrite_all_map. unfold masked. revert m.
  induction l as [|[k x] l IH]; intros [|[k' x'] m] H; cbn in *; try discriminate; [reflexivity|].
  injection H as H1 H2. f_equal; [|apply IH, H2].
  assert (k = k') as ->. { destruct (existsb _ D), (existsb _ D); cbn in *; congruence. }
  destruct (existsb (String.eqb k') D) eqn:E.
  - apply in_b in E. rewrite HD in E. apply (f_equal (pair k')). exact (final_covered kvs k' x x' E).
  - congruence.
Qed.

Lemma apply_spec : forall ps s ch, shape ch -> Forall wf_par ps ->
  let '(ch', ok) := apply_params ch ps s in
  shape ch' /\ ok = forallb known_b ps /\
  (ok = true -> stored ch' = overwrite_all (map (fun p => (par_path p, value_at p s)) ps) (stored ch)) /\
  (forall D, incl (map par_path ps) D -> masked D (stored ch') = masked D (stored ch)).
Proof.
  induction ps as [|p ps IH]; intros s ch S W; cbn [apply_params].
  - split; [exact S|]. split; [reflexivity|]. split; reflexivity.
  - inversion W; subst. destruct (eval_total p s H1) as [v E]. rewrite E.
    destruct (paths_dec (par_path p)) as [Hp|Hp].
    + rewrite set_known by assumption. specialize (IH s (upd_chassis (par_path p) v ch) (shape_upd _ _ _ S) H2).
      destruct (apply_params _ ps s) as [ch' ok]. destruct IH as (S' & O & F & M).
      split; [exact S'|]. split; [|split].
      * cbn [forallb]. rewrite <- O. apply known_b_in in Hp. rewrite Hp. reflexivity.
      * intros K. rewrite (F K), stored_chassis_upd. cbn [map overwrite_all fold_left fst snd].
        assert (value_at p s = v) as -> by (unfold value_at; rewrite E; reflexivity). reflexivity.
      * intros D I. rewrite M by (intros q Hq; apply I; right; exact Hq). rewrite stored_chassis_upd.
        apply masked_overwrite_in. apply I. left. reflexivity.
    + rewrite set_unknown by assumption. split; [exact S|]. split; [|split].
      * cbn [forallb]. destruct (known_b p) eqn:K; [|reflexivity]. apply known_b_in in K. contradiction.
      * discriminate.
      * reflexivity.
Qed.

(** *** The four representations *)
Definition inv (ps : list parameter) (a : f1_all) : Prop :=
  NoDup (map par_path ps) /\ Forall wf_par ps /\
  forall w, car_params (get_rep a w) = ps /\ shape (car_chassis (get_rep a w)) /\
    masked (map par_path ps) (stored (car_chassis (get_rep a w))) =
    masked (map par_path ps) (stored (car_chassis (get_rep a CartesianScalar))).

Lemma get_all_four : forall f a a', (forall w, exists c', f (get_rep a w) = Some c' /\ get_rep a' w = c') ->
  all_four f a = a'.
Proof.
  intros f [c1 c2 c3 c4] [d1 d2 d3 d4] H. unfold all_four; cbn.
  destruct (H CartesianScalar) as (e1 & E1 & <-), (H CurvilinearScalar) as (e2 & E2 & <-),
    (H CartesianAd) as (e3 & E3 & <-), (H CurvilinearAd) as (e4 & E4 & <-). cbn in *.
  rewrite E1, E2, E3, E4. reflexivity.
Qed.

Lemma inv_step : forall a o ps, inv ps a -> exists ps', inv ps' (f1_step a o) /\
  match o with SetParameter p v => In p all_paths -> ps' = fill_param ps p v | _ => True end /\
  match o with SetParameter p v => In p all_paths -> forall w,
      stored (car_chassis (get_rep (f1_step a o) w)) = overwrite p v (stored (car_chassis (get_rep a w)))
   | _ => True end /\
  match o with Declare d => (ps' = ps \/ exists q, call_make d = Some q /\ ps' = (ps ++ [q])%list) | Evaluate _ _ => ps' = ps | _ => True end.
Proof.
  intros a o ps (N & W & I). destruct o as [p v|d|w s]; cbn [f1_step].
  - destruct (paths_dec p) as [Hp|Hp].
    + assert (Ec : forall w, car_set (get_rep a w) p v =
        Some (MkCar (upd_chassis p v (car_chassis (get_rep a w))) (fill_param ps p v))).
      { intros w. destruct (I w) as (E & S & _). unfold car_set. rewrite set_known, E by assumption. reflexivity. }
      exists (fill_param ps p v).
      assert (all_four (fun c => car_set c p v) a =
        MkF1 (MkCar (upd_chassis p v (car_chassis (get_rep a CartesianScalar))) (fill_param ps p v))
             (MkCar (upd_chassis p v (car_chassis (get_rep a CurvilinearScalar))) (fill_param ps p v))
             (MkCar (upd_chassis p v (car_chassis (get_rep a CartesianAd))) (fill_param ps p v))
             (MkCar (upd_chassis p v (car_chassis (get_rep a CurvilinearAd))) (fill_param ps p v))) as ->.
      { apply get_all_four. intros w. eexists. split; [apply Ec|]. destruct w; reflexivity. }
      split; [|split; [reflexivity|split; [|exact Logic.I]]].
      * split; [rewrite fill_paths; exact N|]. split; [apply fill_wf, W|]. rewrite fill_paths. intros w.
        split; [destruct w; reflexivity|]. split; [destruct w; apply shape_upd, I|].
        destruct (I w) as (_ & _ & M).
        destruct w; cbn [get_rep cartesian_scalar curvilinear_scalar cartesian_ad curvilinear_ad car_chassis];
        rewrite !stored_chassis_upd; apply masked_overwrite; exact M.
      * intros _ w. destruct w; apply stored_chassis_upd.
    + exists ps. assert (all_four (fun c => car_set c p v) a = a) as ->.
      { unfold all_four, car_set. destruct (I CartesianScalar) as (E & S & _). cbn in S. rewrite set_unknown by assumption.
        reflexivity. }
      split; [split; [exact N|split; [exact W|exact I]]|]. split; [contradiction|]. split; [contradiction|exact Logic.I].
  - destruct (add_parameter ps (call_path d) (call_make d)) as [ps'|] eqn:E.
    + exists ps'. assert (all_four (fun c => car_add c d) a =
        MkF1 (MkCar (car_chassis (get_rep a CartesianScalar)) ps') (MkCar (car_chassis (get_rep a CurvilinearScalar)) ps')
             (MkCar (car_chassis (get_rep a CartesianAd)) ps') (MkCar (car_chassis (get_rep a CurvilinearAd)) ps')) as ->.
      { apply get_all_four. intros w. eexists. split.
        - unfold car_add. destruct (I w) as (-> & _). rewrite E. reflexivity.
        - destruct w; reflexivity. }
      unfold add_parameter in E. destruct (existsb _ ps) eqn:X; [discriminate|].
      destruct (call_make d) as [q|] eqn:Ed; [|discriminate]. injection E as <-.
      destruct (made_wf _ _ Ed) as [Wq Pq].
      split; [|split; [exact Logic.I|split; [exact Logic.I|right; exists q; split; [reflexivity|reflexivity]]]].
      split; [|split].
      * rewrite map_app. cbn.
        clear - N X Pq. induction ps as [|a ps IH]; cbn in *; [constructor; [intros []|constructor]|].
        inversion N; subst. apply orb_false_iff in X. destruct X as [X1 X2]. constructor; [|apply IH; assumption].
        rewrite in_app_iff. intros [K|[K|[]]]; [contradiction|]. rewrite Pq in K.
        rewrite K, String.eqb_refl in X1. discriminate.
      * apply Forall_app. split; [exact W|]. constructor; [exact Wq|constructor].
      * intros w. split; [destruct w; reflexivity|]. split; [destruct w; apply I|].
        destruct (I w) as (_ & _ & M).
        assert (incl (map par_path ps) (map par_path (ps ++ [q])%list)) as INC.
        { rewrite map_app. apply incl_appl, incl_refl. }
        destruct w; cbn [get_rep cartesian_scalar curvilinear_scalar cartesian_ad curvilinear_ad car_chassis];
        refine (masked_incl _ _ _ _ INC M).
    + exists ps. assert (all_four (fun c => car_add c d) a = a) as ->.
      { unfold all_four, car_add. destruct (I CartesianScalar) as (Ep & S & _). cbn in Ep. rewrite Ep, E. reflexivity. }
      split; [split; [exact N|split; [exact W|exact I]]|]. split; [exact Logic.I|]. split; [exact Logic.I|left; reflexivity].
  - exists ps. split; [|split; [exact Logic.I|split; [exact Logic.I|reflexivity]]].
    split; [exact N|]. split; [exact W|].
    destruct (I w) as (Ep & S & _).
    pose proof (apply_spec ps s (car_chassis (get_rep a w)) S W) as A.
    unfold car_evaluate. rewrite Ep. destruct (apply_params _ ps s) as [ch' ok]. destruct A as (S' & _ & _ & M).
    specialize (M (map par_path ps) (incl_refl _)).
    assert (forall w', car_params (get_rep (set_rep a w (MkCar ch' ps)) w') = ps /\
              shape (car_chassis (get_rep (set_rep a w (MkCar ch' ps)) w')) /\
              masked (map par_path ps) (stored (car_chassis (get_rep (set_rep a w (MkCar ch' ps)) w'))) =
              masked (map par_path ps) (stored (car_chassis (get_rep a CartesianScalar)))) as K.
    { intros w'. destruct (I w') as (P1 & P2 & P3). destruct (I w) as (Q1 & Q2 & Q3).
      rewrite Q3 in M.
      destruct w, w'; cbn in *; auto. }
    cbn [fst]. intros w'. destruct (K w') as (K1 & K2 & K3). split; [exact K1|]. split; [exact K2|].
    destruct (K CartesianScalar) as (_ & _ & K4). rewrite K3, K4. reflexivity.
Qed.

Lemma inv_new : forall ch, shape ch -> inv [] (f1_new ch).
Proof.
  intros ch S. split; [constructor|]. split; [constructor|]. intros w. destruct w; cbn; auto.
Qed.
Lemma inv_run : forall os a ps, inv ps a -> exists ps', inv ps' (f1_run a os).
Proof.
  induction os as [|o os IH]; intros a ps H; cbn; [exists ps; exact H|].
  destruct (inv_step a o ps H) as (ps' & H' & _). eapply IH; exact H'.
Qed.

Lemma effective_spec : forall ps a w s, inv ps a ->
  effective (get_rep a w) s =
  if forallb known_b ps then
    Some (overwrite_all (map (fun p => (par_path p, value_at p s)) ps) (stored (car_chassis (get_rep a w))))
  else None.
Proof.
  intros ps a w s (N & W & I). destruct (I w) as (Ep & S & M). unfold effective, car_evaluate. rewrite Ep.
  pose proof (apply_spec ps s _ S W) as A. destruct (apply_params _ ps s) as [ch' ok].
  destruct A as (_ & O & F & _). cbn. rewrite <- O. destruct ok; [|reflexivity]. rewrite (F eq_refl). reflexivity.
Qed.

Theorem synchronised : forall ch os w w' s, obtainable ch ->
  let a := f1_run (f1_new ch) os in
  car_params (get_rep a w) = car_params (get_rep a w') /\
  effective (get_rep a w) s = effective (get_rep a w') s.
Proof.
  intros ch os w w' s O a. destruct (inv_run os (f1_new ch) [] (inv_new ch (obtainable_shape ch O))) as (ps & H).
  fold a in H. split.
  - destruct H as (_ & _ & I). destruct (I w) as (-> & _), (I w') as (-> & _). reflexivity.
  - rewrite !(effective_spec ps) by exact H. destruct (forallb known_b ps); [|reflexivity]. f_equal.
    apply (masked_overwrite_all _ (map par_path ps)); [rewrite map_map; reflexivity|].
    destruct H as (_ & _ & I). destruct (I w) as (_ & _ & M), (I w') as (_ & _ & M'). congruence.
Qed.

(** *** set_parameter wins over declared parameters *)
Theorem set_wins : forall ch os p v w s, obtainable ch -> In p all_paths ->
  let a := f1_run (f1_new ch) (os ++ [SetParameter p v]) in
  (forall q, In q (car_params (get_rep a w)) -> In (par_path q) all_paths) ->
  exists l, effective (get_rep a w) s = Some l /\ (exists x, In (p, x) l) /\ forall x, In (p, x) l -> x == v.
Proof.
  intros ch os p v w s O Hp a K.
  destruct (inv_run os (f1_new ch) [] (inv_new ch (obtainable_shape ch O))) as (ps & H).
  unfold a, f1_run in *. rewrite fold_left_app in *. cbn [fold_left] in *. fold (f1_run (f1_new ch) os) in *.
  set (b := f1_run (f1_new ch) os) in *.
  destruct (inv_step b (SetParameter p v) ps H) as (ps' & H' & E & F & _).
  specialize (E Hp). specialize (F Hp w). subst ps'.
  rewrite (effective_spec _ _ w s H').
  assert (Ep : car_params (get_rep (f1_step b (SetParameter p v)) w) = fill_param ps p v) by apply H'.
  rewrite Ep in K.
  assert (forallb known_b (fill_param ps p v) = true) as ->.
  { apply forallb_forall. intros q Hq. apply known_b_in, K, Hq. }
  eexists. split; [reflexivity|]. rewrite overwrite_all_map, F. split.
  - destruct H as (_ & _ & I). destruct (I w) as (_ & S & _).
    pose proof (proj2 (stored_paths_shape _ S p) Hp) as X. unfold overwrite. rewrite map_map.
    apply in_map_iff in X. destruct X as ([k x] & X1 & X2). cbn in X1. subst k.
    eexists. apply in_map_iff. exists (p, x). split; [|exact X2]. cbn. rewrite String.eqb_refl. cbn. reflexivity.
  - intros x Hx. unfold overwrite in Hx. rewrite map_map in Hx. apply in_map_iff in Hx.
    destruct Hx as ([k y] & X1 & X2).
    cbn [fst snd] in X1. destruct (String.eqb k p) eqn:Ek.
    + cbn [fst snd] in X1. apply String.eqb_eq in Ek. subst k. injection X1 as <-.
      destruct (in_dec string_dec p (map par_path (fill_param ps p v))) as [I|I].
      * assert (In p (map fst (map (fun q => (par_path q, value_at q s)) (fill_param ps p v)))) as J
          by (rewrite map_map; exact I).
        apply (final_in _ _ v) in J. apply in_map_iff in J. destruct J as (q & J1 & J2).
        injection J1 as J1 J3. rewrite <- J3. destruct H as (N & _ & _).
        assert (Wq : wf_par q). { destruct H' as (_ & W' & _). rewrite Forall_forall in W'. apply W', J2. }
        destruct (eval_total q s Wq) as [z Ez]. unfold value_at. rewrite Ez.
        apply (eval_constant q s v z); [|exact Ez]. intros t Ht. eapply fill_value; eauto.
      * rewrite final_other by (rewrite map_map; exact I). reflexivity.
    + cbn [fst snd] in X1. injection X1 as X1 _. subst k. rewrite String.eqb_refl in Ek. discriminate.
Qed.

(** An unknown path can be declared; from then on every evaluation throws. *)
Theorem unknown_declaration : forall ch os d s w, obtainable ch -> ~ In (call_path d) all_paths ->
  let a := f1_run (f1_new ch) os in
  car_add (get_rep a CartesianScalar) d <> None ->
  let b := f1_step a (Declare d) in
  (exists q, In q (car_params (get_rep b w)) /\ par_path q = call_path d) /\ effective (get_rep b w) s = None.
Proof.
  intros ch os d s w O Hd a K b.
  destruct (inv_run os (f1_new ch) [] (inv_new ch (obtainable_shape ch O))) as (ps & H). fold a in H.
  unfold car_add in K.
  assert (Ep : car_params (get_rep a CartesianScalar) = ps) by apply H. rewrite Ep in K.
  destruct (inv_step a (Declare d) ps H) as (ps' & H' & _ & _ & E). fold b in H'.
  assert (exists q, In q ps' /\ par_path q = call_path d) as (q & Hq & Eq).
  { destruct (add_parameter ps (call_path d) (call_make d)) as [ps2|] eqn:Ea; [|contradiction K; reflexivity].
    unfold add_parameter in Ea. destruct (existsb _ ps) eqn:X; [discriminate|].
    destruct (call_make d) as [q|] eqn:Em; [|discriminate]. cbn in Ea. injection Ea as <-.
    destruct E as [E|(q' & Eq' & ->)].
    - exfalso. assert (Ew : car_params (get_rep b CartesianScalar) = ps') by apply H'. subst ps'.
      assert (car_params (get_rep b CartesianScalar) = (ps ++ [q])%list) as Y.
      { unfold b. cbn [f1_step].
        rewrite (get_all_four (fun c => car_add c d) a
          (MkF1 (MkCar (car_chassis (get_rep a CartesianScalar)) (ps ++ [q])) (MkCar (car_chassis (get_rep a CurvilinearScalar)) (ps ++ [q]))
             (MkCar (car_chassis (get_rep a CartesianAd)) (ps ++ [q])) (MkCar (car_chassis (get_rep a CurvilinearAd)) (ps ++ [q])))).
        - reflexivity.
        - intros w'. eexists. split.
          + unfold car_add. destruct H as (_ & _ & I). destruct (I w') as (-> & _).
            unfold add_parameter. rewrite X, Em. reflexivity.
          + destruct w'; reflexivity. }
      rewrite Ew in Y. apply (f_equal (@length _)) in Y. rewrite app_length in Y. cbn in Y. lia.
    - exists q'. split; [apply in_or_app; right; left; reflexivity|]. apply made_wf. rewrite Em. exact Eq'. }
  split.
  - exists q. assert (car_params (get_rep b w) = ps') as -> by apply H'. split; [exact Hq|exact Eq].
  - rewrite (effective_spec ps' b w s H').
    destruct (forallb known_b ps') eqn:F; [|reflexivity]. exfalso. rewrite forallb_forall in F.
    specialize (F q Hq). apply known_b_in in F. congruence.
Qed.
