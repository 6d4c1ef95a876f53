(** Property theorems C115: evaluating a car is an observation. *)
From Coq Require Import String QArith List Bool.
From Verif Require Import M_Param S_Param M_Tree S_Tree L_Param L_Tree L_TreeCar.
Import ListNotations.
Local Open Scope string_scope.

(** The calls other than evaluations. *)
Definition changes (o : f1_op) : bool := match o with Evaluate _ _ => false | _ => true end.
Definition declares (o : f1_op) : bool := match o with Declare _ => true | _ => false end.

(** One copy of the car under a call. *)
Definition car_step (w : which) (c : car) (o : f1_op) : car :=
  match o with
  | SetParameter p v => match car_set c p v with Some c' => c' | None => c end
  | Declare d => match car_add c d with Some c' => c' | None => c end
  | Evaluate w' s => if match w, w' with CartesianScalar, CartesianScalar | CurvilinearScalar, CurvilinearScalar
                                       | CartesianAd, CartesianAd | CurvilinearAd, CurvilinearAd => true | _, _ => false end
                     then fst (car_evaluate c s) else c
  end.

Lemma step_rep : forall a o ps w, inv ps a -> get_rep (f1_step a o) w = car_step w (get_rep a w) o.
Proof.
  intros a o ps w (N & W & I). destruct o as [p v|d|w' s]; cbn [f1_step car_step].
  - destruct (paths_dec p) as [Hp|Hp].
    + assert (Ec : forall w, car_set (get_rep a w) p v =
        Some (MkCar (upd_chassis p v (car_chassis (get_rep a w))) (fill_param ps p v))).
      { intros w0. destruct (I w0) as (E & S & _). unfold car_set. rewrite set_known, E by assumption. reflexivity. }
      unfold all_four.
      pose proof (Ec CartesianScalar) as E1. pose proof (Ec CurvilinearScalar) as E2.
      pose proof (Ec CartesianAd) as E3. pose proof (Ec CurvilinearAd) as E4. cbn [get_rep] in E1, E2, E3, E4.
      rewrite E1, E2, E3, E4. rewrite Ec. destruct w; reflexivity.
    + assert (Ec : forall w, car_set (get_rep a w) p v = None).
      { intros w0. destruct (I w0) as (E & S & _). unfold car_set. rewrite set_unknown by assumption. reflexivity. }
      unfold all_four. pose proof (Ec CartesianScalar) as E1. cbn [get_rep] in E1. rewrite E1, Ec. reflexivity.
  - assert (Ec : forall w, car_add (get_rep a w) d = option_map (MkCar (car_chassis (get_rep a w))) (add_parameter ps (call_path d) (call_make d))).
    { intros w0. unfold car_add. destruct (I w0) as (-> & _). reflexivity. }
    unfold all_four.
    pose proof (Ec CartesianScalar) as E1. pose proof (Ec CurvilinearScalar) as E2.
    pose proof (Ec CartesianAd) as E3. pose proof (Ec CurvilinearAd) as E4. cbn [get_rep] in E1, E2, E3, E4.
    rewrite E1, E2, E3, E4. rewrite Ec.
    destruct (add_parameter ps (call_path d) (call_make d)); cbn [option_map]; [|reflexivity].
    destruct w; reflexivity.
  - destruct w, w'; reflexivity.
Qed.

(** Two copies that every evaluation treats alike. *)
Definition alike (c d : car) : Prop :=
  car_params c = car_params d /\ Forall wf_par (car_params c) /\
  shape (car_chassis c) /\ shape (car_chassis d) /\
  masked (map par_path (car_params c)) (stored (car_chassis c))
  = masked (map par_path (car_params c)) (stored (car_chassis d)).

Lemma alike_change : forall w c d o, changes o = true -> alike c d -> alike (car_step w c o) (car_step w d o).
Proof.
  intros w [ch ps] [ch' ps'] o Ho (E & W & S & S' & M). cbn in E, W, S, S', M. subst ps'.
  destruct o as [p v|a|w' s]; [| |discriminate]; cbn [car_step].
  - destruct (paths_dec p) as [Hp|Hp]; unfold car_set; cbn [car_chassis car_params].
    + rewrite !set_known by assumption. split; [reflexivity|]. cbn [car_chassis car_params].
      split; [apply fill_wf, W|]. split; [apply shape_upd, S|]. split; [apply shape_upd, S'|].
      rewrite fill_paths, !stored_chassis_upd. apply masked_overwrite. exact M.
    + rewrite !set_unknown by assumption. exact (conj eq_refl (conj W (conj S (conj S' M)))).
  - unfold car_add; cbn [car_chassis car_params].
    destruct (add_parameter ps (call_path a) (call_make a)) as [ps'|] eqn:E; cbn [option_map].
    + unfold add_parameter in E. destruct (existsb _ ps); [discriminate|].
      destruct (call_make a) as [q|] eqn:Ea; [|discriminate]. injection E as <-.
      destruct (made_wf _ _ Ea) as [Wq _].
      split; [reflexivity|]. cbn [car_chassis car_params].
      split; [apply Forall_app; split; [exact W|constructor; [exact Wq|constructor]]|].
      split; [exact S|]. split; [exact S'|].
      refine (masked_incl _ _ _ _ _ M). rewrite map_app. apply incl_appl, incl_refl.
    + exact (conj eq_refl (conj W (conj S (conj S' M)))).
Qed.
Lemma alike_evaluate : forall c d s, alike c d -> alike (fst (car_evaluate c s)) d.
Proof.
  intros [ch ps] [ch' ps'] s (E & W & S & S' & M). cbn in E, W, S, S', M. subst ps'.
  pose proof (apply_spec ps s ch S W) as A. unfold car_evaluate; cbn [car_chassis car_params].
  destruct (apply_params ch ps s) as [ch1 ok]. destruct A as (S1 & _ & _ & M1).
  cbn [fst]. split; [reflexivity|]. cbn [car_chassis car_params].
  split; [exact W|]. split; [exact S1|]. split; [exact S'|].
  rewrite (M1 _ (incl_refl _)). exact M.
Qed.
Lemma alike_effective : forall c d s, alike c d -> effective c s = effective d s.
Proof.
  intros [ch ps] [ch' ps'] s (E & W & S & S' & M). cbn in E, W, S, S', M. subst ps'.
  unfold effective, car_evaluate; cbn [car_chassis car_params].
  pose proof (apply_spec ps s ch S W) as A. pose proof (apply_spec ps s ch' S' W) as A'.
  destruct (apply_params ch ps s) as [c1 ok]. destruct (apply_params ch' ps s) as [c2 ok'].
  destruct A as (_ & O & F & _), A' as (_ & O' & F' & _). cbn [car_chassis].
  assert (ok = ok') as <- by congruence. destruct ok; [|reflexivity]. f_equal.
  rewrite (F eq_refl), (F' eq_refl).
  apply (masked_overwrite_all _ (map par_path ps)); [rewrite map_map; reflexivity|exact M].
Qed.

Lemma alike_run : forall os a b ps qs w, inv ps a -> inv qs b -> alike (get_rep a w) (get_rep b w) ->
  alike (get_rep (f1_run a os) w) (get_rep (f1_run b (filter changes os)) w).
Proof.
  induction os as [|o os IH]; intros a b ps qs w Ia Ib H; [exact H|].
  cbn [f1_run fold_left filter].
  destruct (inv_step a o ps Ia) as (ps' & Ia' & _).
  destruct (changes o) eqn:Eo.
  - destruct (inv_step b o qs Ib) as (qs' & Ib' & _).
    cbn [fold_left]. apply (IH _ _ ps' qs' w Ia' Ib').
    rewrite (step_rep a o ps w Ia), (step_rep b o qs w Ib). apply alike_change; assumption.
  - apply (IH _ _ ps' qs w Ia' Ib). rewrite (step_rep a o ps w Ia).
    destruct o as [| |w' s]; try discriminate. cbn [car_step].
    destruct (match w, w' with CartesianScalar, CartesianScalar | CurvilinearScalar, CurvilinearScalar
                             | CartesianAd, CartesianAd | CurvilinearAd, CurvilinearAd => true | _, _ => false end);
      [apply alike_evaluate; exact H|exact H].
Qed.

(** *** C115 *)

(** Whatever was evaluated before, on whichever copies and wherever on the track: the numbers an
    evaluation works with are those of a car on which only the changes were made. *)
Theorem C115_evaluations_leave_no_trace_partial : forall ch os w s, obtainable ch ->
  let a := f1_run (f1_new ch) os in
  let b := f1_run (f1_new ch) (filter changes os) in
  effective (get_rep a w) s = effective (get_rep b w) s /\
  car_params (get_rep a w) = car_params (get_rep b w).
Proof.
  intros ch os w s O a b. pose proof (obtainable_shape ch O) as Sh.
  assert (A : alike (get_rep a w) (get_rep b w)).
  { apply (alike_run os _ _ [] [] w (inv_new ch Sh) (inv_new ch Sh)).
    assert (E : get_rep (f1_new ch) w = MkCar ch []) by (destruct w; reflexivity).
    rewrite E. exact (conj eq_refl (conj (Forall_nil _) (conj Sh (conj Sh eq_refl)))). }
  split; [apply alike_effective; exact A|apply A].
Qed.

(** Without declared parameters nothing at all is left behind: the files saved are the same. *)
Theorem C115_saved_file_partial : forall ch os w, obtainable ch -> existsb declares os = false ->
  save_xml (car_chassis (get_rep (f1_run (f1_new ch) os) w))
  = save_xml (car_chassis (get_rep (f1_run (f1_new ch) (filter changes os)) w)).
Proof.
  intros ch os w O. pose proof (obtainable_shape ch O) as Sh.
  assert (G : forall os a, inv [] a -> existsb declares os = false ->
    f1_run a os = f1_run a (filter changes os)).
  { clear. induction os as [|o os IH]; intros a I H; [reflexivity|].
    cbn [existsb] in H. apply orb_false_iff in H as [Ho H].
    destruct (inv_step a o [] I) as (ps' & I' & E1 & _ & E3).
    cbn [f1_run fold_left filter].
    destruct o as [p v|d|w' s]; [|discriminate|]; cbn [changes].
    - cbn [fold_left]. apply IH; [|exact H].
      destruct (paths_dec p) as [Hp|Hp]; [rewrite (E1 Hp) in I'; exact I'|].
      replace (f1_step a (SetParameter p v)) with a; [exact I|].
      cbn [f1_step]. unfold all_four, car_set. destruct I as (_ & _ & I). destruct (I CartesianScalar) as (_ & S & _).
      cbn [get_rep] in S. rewrite set_unknown by assumption. reflexivity.
    - transitivity (f1_run a os); [|exact (IH a I H)]. unfold f1_run. f_equal.
      destruct I as (_ & _ & I). destruct (I w') as (E & _ & _).
      cbn [f1_step]. unfold car_evaluate. rewrite E. cbn [apply_params fst].
      destruct a as [[c1 p1] [c2 p2] [c3 p3] [c4 p4]]; destruct w'; cbn in *; subst; reflexivity. }
  intros H. rewrite (G os (f1_new ch) (inv_new ch Sh) H). reflexivity.
Qed.

(** With a declared parameter, asking for an output changes the file saved afterwards
    (vehicle_get_output and vehicle_save_as_xml work on the same copy). *)
Theorem C115_saved_file_refuted : exists ch d s, obtainable ch /\
  save_xml (car_chassis (curvilinear_scalar (f1_run (f1_new ch) [Declare d])))
  <> save_xml (car_chassis (curvilinear_scalar (f1_run (f1_new ch) [Declare d; Evaluate CurvilinearScalar s]))).
Proof.
  exists (empty_f1 (fun _ => 0)), (AddVarying "vehicle/chassis/mass" ["m1"; "m2"] [600; 700] [(0, 0%nat); (100, 1%nat)]), 50%Q.
  split; [apply from_empty|]. vm_compute. discriminate.
Qed.

(** The car has no memory of where it was evaluated: mass 650 in the middle of the track. *)
Example C115_example : exists l,
  effective (curvilinear_scalar (f1_run (f1_new (empty_f1 (fun _ => 0)))
    [Declare (AddVarying "vehicle/chassis/mass" ["m1"; "m2"] [600; 700] [(0, 0%nat); (100, 1%nat)]);
     Evaluate CurvilinearScalar 90; Evaluate CurvilinearAd 10; Evaluate CurvilinearScalar 20])) 50 = Some l /\
  existsb (fun e => String.eqb (fst e) "vehicle/chassis/mass" && Qeq_bool (snd e) 650) l = true.
Proof. eexists. split; [vm_compute; reflexivity|]. vm_compute. reflexivity. Qed.

Print Assumptions C115_evaluations_leave_no_trace_partial.
Print Assumptions C115_saved_file_partial.
Print Assumptions C115_saved_file_refuted.
