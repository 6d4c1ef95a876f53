(** Proofs about varying parameters. *)
From Coq Require Import String List QArith Bool Arith Lia Lqa.
From Verif Require Import M_Param S_Param.
Import ListNotations.
Local Open Scope Q_scope.

Lemma Qle_bool_false a b : Qle_bool a b = false <-> b < a.
Proof.
  rewrite <- not_true_iff_false, Qle_bool_iff. split; [apply Qnot_le_lt|apply Qlt_not_le].
Qed.

Lemma mesh_sorted_spec mesh : mesh_sorted mesh = true <-> strictly_increasing mesh.
Proof.
  unfold strictly_increasing. induction mesh as [|a [|b rest] IH].
  - simpl. split; [|auto]. intros _ [|i] ? ? H; discriminate.
  - simpl. split; [|auto]. intros _ [|[|i]] ? ? H H'; simpl in *; discriminate.
  - change (mesh_sorted (a :: b :: rest)) with (negb (Qle_bool (fst b) (fst a)) && mesh_sorted (b :: rest)).
    rewrite andb_true_iff, negb_true_iff, Qle_bool_false, IH. split.
    + intros [H1 H2] [|i] x y Hx Hy; [simpl in *; congruence|]. now apply (H2 i).
    + intro H. split; [now apply (H O)|]. intros i x y Hx Hy. now apply (H (S i)).
Qed.

Lemma set_true_nth l i j : nth_error (set_true l i) j =
  if Nat.eqb i j then option_map (fun _ => true) (nth_error l j) else nth_error l j.
Proof.
  revert i j; induction l as [|b l IH]; intros i j; simpl.
  - destruct i, j; simpl; try reflexivity. now destruct (Nat.eqb i j).
  - destruct i, j; simpl; try reflexivity. apply IH.
Qed.
Lemma set_true_length l i : length (set_true l i) = length l.
Proof. revert i; induction l; intros [|i]; simpl; congruence. Qed.

Lemma mark_used_spec n mesh : forall used, length used = n ->
  match mark_used n mesh used with
  | None => exists s i, In (s, i) mesh /\ (n <= i)%nat
  | Some used' => (forall s i, In (s, i) mesh -> (i < n)%nat) /\ length used' = n /\
      forall j, nth_error used' j = Some true <->
        nth_error used j = Some true \/ ((j < n)%nat /\ exists s, In (s, j) mesh)
  end.
Proof.
  induction mesh as [|[s i] rest IH]; intros used Hl; simpl.
  - split; [tauto|]. split; [exact Hl|]. intro j. split; [auto|]. intros [H|(_ & s & [])]; exact H.
  - destruct (Nat.leb_spec n i) as [H|H]; [exists s, i; auto|].
    specialize (IH (set_true used i)). rewrite set_true_length in IH. specialize (IH Hl).
    destruct (mark_used n rest (set_true used i)) as [used'|].
    + destruct IH as (I1 & I2 & I3). split; [|split; [exact I2|]].
      * intros s' i' [[= <- <-]|Hin]; eauto.
      * intro j. rewrite I3, set_true_nth. destruct (Nat.eqb_spec i j) as [<-|Hij].
        -- assert (exists b, nth_error used i = Some b) as [b Hb].
           { destruct (nth_error used i) eqn:E; [eauto|]. apply nth_error_None in E. lia. }
           rewrite Hb. simpl. split; [|auto]. intros _. right. split; [lia|]. eauto.
        -- split; intros [H1|(H1 & s' & H2)]; auto.
           ++ right. eauto.
           ++ destruct H2 as [[= <- <-]|H2]; [lia|]. right. eauto.
    + destruct IH as (s' & i' & Hin & Hi). exists s', i'. auto.
Qed.

Lemma count_false_zero used : count_occ bool_dec used false = O <-> forall j, (j < length used)%nat -> nth_error used j = Some true.
Proof.
  rewrite <- (count_occ_not_In bool_dec). split.
  - intros H j Hj. destruct (nth_error used j) as [[]|] eqn:E; [reflexivity| |].
    + apply nth_error_In in E. tauto.
    + apply nth_error_None in E. lia.
  - intros H Hin. apply In_nth_error in Hin as [j Hj].
    assert (j < length used)%nat by (apply nth_error_Some; congruence). rewrite H in Hj by assumption. discriminate.
Qed.

Lemma nth_repeat_false n j : nth_error (repeat false n) j <> Some true.
Proof. revert j; induction n; intros [|j]; simpl; auto; discriminate. Qed.

Lemma make_varying_spec path aliases values mesh :
  (well_formed_mesh aliases values mesh /\ make_varying path aliases values mesh = Some (MkParameter path aliases values mesh))
  \/ (~ well_formed_mesh aliases values mesh /\ make_varying path aliases values mesh = None).
Proof.
  unfold make_varying, well_formed_mesh.
  destruct (Nat.ltb_spec (length values) 2) as [H|H]; [right; split; [|reflexivity]; intros [? _]; lia|].
  destruct (Nat.eqb_spec (length aliases) (length values)) as [H2|H2]; simpl;
    [|right; split; [|reflexivity]; tauto].
  destruct (mesh_sorted mesh) eqn:Es; simpl.
  2: { right. split; [|reflexivity]. intros (_ & _ & Hs & _). apply mesh_sorted_spec in Hs. congruence. }
  apply mesh_sorted_spec in Es.
  pose proof (mark_used_spec (length values) mesh (repeat false (length values)) (repeat_length _ _)) as M.
  destruct (mark_used _ _ _) as [used|].
  - destruct M as (M1 & M2 & M3).
    destruct (Nat.ltb_spec 0 (count_occ bool_dec used false)) as [Hc|Hc].
    + right. split; [|reflexivity]. intros (_ & _ & _ & _ & Hall).
      assert (count_occ bool_dec used false = O); [|lia].
      apply count_false_zero. intros j Hj. apply M3. right. rewrite M2 in Hj. auto.
    + left. split; [|reflexivity]. repeat split; auto. intros i Hi.
      assert (Hz : count_occ bool_dec used false = O) by lia.
      apply (proj1 (count_false_zero used)) with (j := i) in Hz; [|lia].
      apply M3 in Hz as [Hz|[_ Hz]]; [now apply nth_repeat_false in Hz|exact Hz].
  - destruct M as (s & i & Hin & Hi). right. split; [|reflexivity]. intros (_ & _ & _ & Hr & _).
    apply Hr in Hin. lia.
Qed.

Lemma constructor_accepts path aliases values mesh :
  (exists p, make_varying path aliases values mesh = Some p) <-> well_formed_mesh aliases values mesh.
Proof.
  destruct (make_varying_spec path aliases values mesh) as [[H E]|[H E]]; rewrite E; split; eauto; try tauto.
  intros [p Hp]; discriminate.
Qed.
Lemma constructor_result path aliases values mesh p :
  make_varying path aliases values mesh = Some p -> p = MkParameter path aliases values mesh.
Proof. destruct (make_varying_spec path aliases values mesh) as [[H E]|[H E]]; rewrite E; congruence. Qed.

(** *** Evaluation *)
Lemma upper_bound_le mesh s : (upper_bound mesh s <= length mesh)%nat.
Proof. induction mesh as [|a m IH]; simpl; [lia|]. destruct (Qle_bool (fst a) s); simpl; lia. Qed.

Lemma upper_bound_below mesh s : forall i a, (i < upper_bound mesh s)%nat -> nth_error mesh i = Some a -> fst a <= s.
Proof.
  induction mesh as [|b m IH]; simpl; intros i a Hi Ha; [lia|].
  destruct (Qle_bool (fst b) s) eqn:E; [|lia]. destruct i; simpl in Ha.
  - injection Ha as <-. now apply Qle_bool_iff.
  - eapply IH; eauto. lia.
Qed.
Lemma upper_bound_at mesh s a : nth_error mesh (upper_bound mesh s) = Some a -> s < fst a.
Proof.
  induction mesh as [|b m IH]; simpl; intros Ha; [discriminate|].
  destruct (Qle_bool (fst b) s) eqn:E; simpl in Ha; [auto|]. injection Ha as <-. now apply Qle_bool_false.
Qed.
Lemma increasing_lt mesh : strictly_increasing mesh -> forall j i a b, (i < j)%nat ->
  nth_error mesh i = Some a -> nth_error mesh j = Some b -> fst a < fst b.
Proof.
  intros H j. induction j as [|j IH]; intros i a b Hij Ha Hb; [lia|].
  destruct (Nat.eq_dec i j) as [->|].
  - eapply H; eauto.
  - destruct (nth_error mesh j) as [c|] eqn:E.
    + apply Qlt_trans with (fst c); [eapply IH; eauto; lia|eapply H; eauto].
    + apply nth_error_None in E. assert (S j < length mesh)%nat by (apply nth_error_Some; congruence). lia.
Qed.

(** The position found when [s] lies in the half-open interval after point [i]. *)
Lemma upper_bound_interval mesh s i a : strictly_increasing mesh ->
  nth_error mesh i = Some a -> fst a <= s ->
  (forall b, nth_error mesh (S i) = Some b -> s < fst b) ->
  upper_bound mesh s = S i.
Proof.
  intros HI Ha Hs Hb.
  assert (Hi : (i < length mesh)%nat) by (apply nth_error_Some; congruence).
  destruct (Nat.lt_trichotomy (upper_bound mesh s) (S i)) as [H|[H|H]]; [|exact H|].
  - exfalso. destruct (nth_error mesh (upper_bound mesh s)) as [c|] eqn:E.
    + pose proof (upper_bound_at _ _ _ E).
      assert (fst c <= fst a).
      { destruct (Nat.eq_dec (upper_bound mesh s) i) as [Q|].
        - rewrite Q in E. assert (c = a) by congruence. subst. apply Qle_refl.
        - apply Qlt_le_weak. apply (increasing_lt mesh HI i (upper_bound mesh s) c a); auto; lia. }
      lra.
    + apply nth_error_None in E. lia.
  - exfalso. pose proof (upper_bound_le mesh s).
    destruct (nth_error mesh (S i)) as [c|] eqn:E; [|apply nth_error_None in E; lia].
    pose proof (upper_bound_below mesh s (S i) c H E). specialize (Hb c eq_refl). lra.
Qed.

Section Eval.
Variables (path : string) (aliases : list string) (values : list Q) (mesh : list (Q * nat)).
Hypothesis WF : well_formed_mesh aliases values mesh.
Let p := MkParameter path aliases values mesh.

Lemma values_not_one : Nat.eqb (length values) 1 = false.
Proof. destruct WF as [H _]. apply Nat.eqb_neq. lia. Qed.

Lemma mesh_value i s k : nth_error mesh i = Some (s, k) -> exists v, nth_error values k = Some v.
Proof.
  intro H. destruct WF as (_ & _ & _ & HB & _). apply nth_error_In in H. apply HB in H.
  destruct (nth_error values k) eqn:E; [eauto|]. apply nth_error_None in E. lia.
Qed.

Lemma eval_interior i s0 v0 s1 v1 s :
  declared values mesh i s0 v0 -> declared values mesh (S i) s1 v1 -> s0 <= s -> s < s1 ->
  exists v, par_eval p s = Some v /\ v = v0 + (s - s0) / (s1 - s0) * (v1 - v0).
Proof.
  intros (k0 & M0 & V0) (k1 & M1 & V1) H0 H1. unfold par_eval, p; simpl. rewrite values_not_one.
  assert (U : upper_bound mesh s = S i).
  { apply (upper_bound_interval mesh s i (s0, k0)); auto; [apply WF|].
    intros b Hb. rewrite M1 in Hb. injection Hb as <-. exact H1. }
  rewrite U. assert (S i < length mesh)%nat by (apply nth_error_Some; congruence).
  destruct (Nat.eqb_spec (S i) 0); [lia|]. destruct (Nat.eqb_spec (S i) (length mesh)); [lia|].
  replace (S i - 1)%nat with i by lia. rewrite M0, M1, V0, V1. eauto.
Qed.

Lemma eval_before s : (forall s0 k, nth_error mesh 0 = Some (s0, k) -> s < s0) -> par_eval p s = nth_error values 0.
Proof.
  intros H. unfold par_eval, p; simpl. rewrite values_not_one.
  assert (U : upper_bound mesh s = O).
  { destruct mesh as [|[s0 k] m]; [reflexivity|]. simpl. assert (s < s0) by (eapply H; reflexivity).
    apply Qle_bool_false in H0. now rewrite H0. }
  rewrite U. reflexivity.
Qed.

Lemma eval_after i s0 k s : nth_error mesh i = Some (s0, k) -> S i = length mesh -> s0 <= s ->
  par_eval p s = nth_error values (length values - 1).
Proof.
  intros M HL Hs. unfold par_eval, p; simpl. rewrite values_not_one.
  assert (U : upper_bound mesh s = S i).
  { apply (upper_bound_interval mesh s i (s0, k)); auto; [apply WF|].
    intros b Hb. assert (S i < length mesh)%nat by (apply nth_error_Some; congruence). lia. }
  rewrite U, HL, Nat.eqb_refl. destruct (Nat.eqb_spec (length mesh) 0); [lia|reflexivity].
Qed.

(** Every arclength is before the first point, in an interval or at/after the last. *)
Lemma eval_cases s :
  (par_eval p s = nth_error values 0) \/
  (par_eval p s = nth_error values (length values - 1)) \/
  (exists i s0 v0 s1 v1, declared values mesh i s0 v0 /\ declared values mesh (S i) s1 v1 /\ s0 <= s /\ s < s1).
Proof.
  unfold par_eval, p; simpl. rewrite values_not_one.
  destruct (Nat.eqb_spec (upper_bound mesh s) 0) as [|N0]; [auto|].
  destruct (Nat.eqb_spec (upper_bound mesh s) (length mesh)) as [|N1]; [auto|].
  pose proof (upper_bound_le mesh s). right. right.
  destruct (nth_error mesh (upper_bound mesh s - 1)) as [[s0 k0]|] eqn:E0; [|apply nth_error_None in E0; lia].
  destruct (nth_error mesh (upper_bound mesh s)) as [[s1 k1]|] eqn:E1; [|apply nth_error_None in E1; lia].
  destruct (mesh_value _ _ _ E0) as [v0 V0]. destruct (mesh_value _ _ _ E1) as [v1 V1].
  exists (upper_bound mesh s - 1)%nat, s0, v0, s1, v1.
  replace (S (upper_bound mesh s - 1)) with (upper_bound mesh s) by lia.
  split; [exists k0; auto|]. split; [exists k1; auto|]. split.
  - apply (fun H => upper_bound_below mesh s _ (s0, k0) H E0). lia.
  - apply (upper_bound_at mesh s (s1, k1) E1).
Qed.

Lemma interior_bounds s0 v0 s1 v1 s lo hi :
  s0 <= s -> s < s1 -> lo <= v0 -> v0 <= hi -> lo <= v1 -> v1 <= hi ->
  lo <= v0 + (s - s0) / (s1 - s0) * (v1 - v0) /\ v0 + (s - s0) / (s1 - s0) * (v1 - v0) <= hi.
Proof.
  intros H0 H1 A B C D. assert (L : 0 < s1 - s0) by lra.
  assert (X0 : 0 <= (s - s0) / (s1 - s0)).
  { apply Qle_shift_div_l; [exact L|]. lra. }
  assert (X1 : (s - s0) / (s1 - s0) <= 1).
  { apply Qle_shift_div_r; [exact L|]. lra. }
  set (x := (s - s0) / (s1 - s0)) in *. split; nra.
Qed.

Lemma eval_bounds s lo hi : (forall v, In v values -> lo <= v /\ v <= hi) ->
  exists v, par_eval p s = Some v /\ lo <= v /\ v <= hi.
Proof.
  intro HB. assert (HL : (2 <= length values)%nat) by apply WF.
  destruct (eval_cases s) as [E|[E|(i & s0 & v0 & s1 & v1 & D0 & D1 & H0 & H1)]].
  - destruct (nth_error values 0) as [v|] eqn:V; [|apply nth_error_None in V; lia].
    exists v. split; [exact E|]. apply HB. eapply nth_error_In; eauto.
  - destruct (nth_error values (length values - 1)) as [v|] eqn:V; [|apply nth_error_None in V; lia].
    exists v. split; [exact E|]. apply HB. eapply nth_error_In; eauto.
  - destruct (eval_interior _ _ _ _ _ _ D0 D1 H0 H1) as (v & E & ->).
    eexists. split; [exact E|]. destruct D0 as (k0 & _ & V0), D1 as (k1 & _ & V1).
    apply nth_error_In, HB in V0 as [? ?]. apply nth_error_In, HB in V1 as [? ?].
    now apply interior_bounds.
Qed.

Lemma eval_line i s0 v0 s1 v1 s :
  declared values mesh i s0 v0 -> declared values mesh (S i) s1 v1 -> s0 <= s -> s < s1 ->
  exists v, par_eval p s = Some v /\ on_line s0 v0 s1 v1 s v.
Proof.
  intros D0 D1 H0 H1. destruct (eval_interior _ _ _ _ _ _ D0 D1 H0 H1) as (v & E & ->).
  eexists; split; [exact E|]. unfold on_line. field. lra.
Qed.

Lemma eval_node i s0 v0 s1 v1 :
  declared values mesh i s0 v0 -> declared values mesh (S i) s1 v1 ->
  exists v, par_eval p s0 = Some v /\ v == v0.
Proof.
  intros D0 D1. assert (L : s0 < s1).
  { destruct D0 as (k0 & M0 & _), D1 as (k1 & M1 & _). destruct WF as (_ & _ & HI & _).
    exact (HI i _ _ M0 M1). }
  destruct (eval_interior _ _ _ _ _ s0 D0 D1 (Qle_refl _) L) as (v & E & ->).
  eexists; split; [exact E|]. field. lra.
Qed.
End Eval.

(** Statements in terms of the constructor. *)
Lemma constructed path aliases values mesh p : make_varying path aliases values mesh = Some p ->
  well_formed_mesh aliases values mesh /\ p = MkParameter path aliases values mesh.
Proof.
  intro H. split; [apply (constructor_accepts path); eauto|now apply constructor_result in H].
Qed.

Lemma varying_bounded path aliases values mesh p s lo hi :
  make_varying path aliases values mesh = Some p ->
  (forall v, In v values -> lo <= v /\ v <= hi) ->
  exists v, par_eval p s = Some v /\ lo <= v /\ v <= hi.
Proof. intros H. apply constructed in H as [WF ->]. now apply eval_bounds. Qed.

Lemma varying_linear path aliases values mesh p i s0 v0 s1 v1 s :
  make_varying path aliases values mesh = Some p ->
  declared values mesh i s0 v0 -> declared values mesh (S i) s1 v1 -> s0 <= s -> s < s1 ->
  exists v, par_eval p s = Some v /\ on_line s0 v0 s1 v1 s v.
Proof. intros H. apply constructed in H as [WF ->]. now apply eval_line. Qed.

Lemma varying_node path aliases values mesh p i s0 v0 :
  make_varying path aliases values mesh = Some p ->
  declared values mesh i s0 v0 -> S i <> length mesh ->
  exists v, par_eval p s0 = Some v /\ v == v0.
Proof.
  intros H D0 Hi. apply constructed in H as [WF ->].
  destruct D0 as (k0 & M0 & V0).
  assert (i < length mesh)%nat by (apply nth_error_Some; congruence).
  destruct (nth_error mesh (S i)) as [[s1 k1]|] eqn:M1; [|apply nth_error_None in M1; lia].
  destruct (mesh_value _ _ _ WF _ _ _ M1) as [v1 V1].
  apply (eval_node path aliases values mesh WF i s0 v0 s1 v1); [exists k0|exists k1]; auto.
Qed.

Lemma varying_before path aliases values mesh p s s0 k v :
  make_varying path aliases values mesh = Some p ->
  nth_error mesh 0 = Some (s0, k) -> s < s0 -> nth_error values 0 = Some v ->
  par_eval p s = Some v.
Proof.
  intros H M Hs V. apply constructed in H as [WF ->]. rewrite <- V. apply eval_before; auto.
  intros s0' k'. rewrite M. intros [= <- <-]. exact Hs.
Qed.
Lemma varying_after path aliases values mesh p s i s0 k v :
  make_varying path aliases values mesh = Some p ->
  nth_error mesh i = Some (s0, k) -> S i = length mesh -> s0 <= s ->
  nth_error values (length values - 1) = Some v ->
  par_eval p s = Some v.
Proof.
  intros H M Hi Hs V. apply constructed in H as [WF ->]. rewrite <- V. eapply eval_after; eauto.
Qed.

Lemma constant_value path alias v s : par_eval (make_constant path alias v) s = Some v.
Proof. reflexivity. Qed.

(** *** Collections *)
Lemma number_of_parameters_sum ps : number_of_parameters ps = length (get_all ps).
Proof.
  unfold number_of_parameters, get_all.
  assert (H : forall n, fold_left (fun n p => n + length (par_values p))%nat ps n = (n + length (flat_map par_values ps))%nat).
  { induction ps as [|p ps IH]; intro n; simpl; [lia|]. rewrite IH, app_length. lia. }
  rewrite H. lia.
Qed.


Lemma set_all_get ps : forall inputs, length inputs = number_of_parameters ps ->
  exists ps', set_all ps inputs = Some ps' /\ get_all ps' = inputs /\ Forall2 same_but_values ps ps'.
Proof.
  setoid_rewrite number_of_parameters_sum.
  induction ps as [|p ps IH]; intros inputs HL; simpl in *.
  - destruct inputs; [|discriminate]. exists []. auto.
  - rewrite app_length in HL. destruct (Nat.ltb_spec (length inputs) (length (par_values p))); [lia|].
    destruct (IH (skipn (length (par_values p)) inputs)) as (ps' & E & G & S).
    { rewrite skipn_length. lia. }
    rewrite E. simpl. eexists. split; [reflexivity|]. split.
    + simpl. rewrite G. apply firstn_skipn.
    + constructor; [|exact S]. repeat split. simpl. rewrite firstn_length. lia.
Qed.

Lemma with_values_same p : with_values p (par_values p) = p.
Proof. now destruct p. Qed.

Lemma get_set_all ps : set_all ps (get_all ps) = Some ps.
Proof.
  induction ps as [|p ps IH]; simpl; [reflexivity|].
  rewrite app_length. destruct (Nat.ltb_spec (length (par_values p) + length (get_all ps)) (length (par_values p))); [lia|].
  rewrite firstn_app, skipn_app, firstn_all, skipn_all, Nat.sub_diag. simpl. rewrite app_nil_r, IH. simpl.
  now rewrite with_values_same.
Qed.

Lemma set_all_short ps : forall inputs, (length inputs < number_of_parameters ps)%nat -> set_all ps inputs = None.
Proof.
  setoid_rewrite number_of_parameters_sum.
  induction ps as [|p ps IH]; intros inputs HL; simpl in *; [lia|].
  rewrite app_length in HL. destruct (Nat.ltb_spec (length inputs) (length (par_values p))); [reflexivity|].
  rewrite IH; [reflexivity|]. rewrite skipn_length. lia.
Qed.

Lemma set_all_long ps : forall inputs extra, length inputs = number_of_parameters ps ->
  set_all ps (inputs ++ extra) = set_all ps inputs.
Proof.
  setoid_rewrite number_of_parameters_sum.
  induction ps as [|p ps IH]; intros inputs extra HL; simpl in *; [reflexivity|].
  rewrite app_length in HL. rewrite app_length.
  destruct (Nat.ltb_spec (length inputs + length extra) (length (par_values p))); [lia|].
  destruct (Nat.ltb_spec (length inputs) (length (par_values p))); [lia|].
  rewrite firstn_app, skipn_app.
  replace (length (par_values p) - length inputs)%nat with O by lia. simpl. rewrite app_nil_r.
  rewrite IH; [reflexivity|]. rewrite skipn_length. lia.
Qed.

(** *** What add_parameter maintains *)
Definition proper (p : parameter) : Prop :=
  (exists a v, p = make_constant (par_path p) a v) \/
  (make_varying (par_path p) (par_aliases p) (par_values p) (par_mesh p) = Some p).

Lemma proper_aliases p : proper p -> length (par_aliases p) = length (par_values p).
Proof.
  intros [(a & v & ->)|H]; [reflexivity|]. apply constructed in H as [(_ & H & _) _]. exact H.
Qed.
Lemma proper_eval p s : proper p -> exists v, par_eval p s = Some v.
Proof.
  intros [(a & v & ->)|H]; [exists v; reflexivity|].
  apply constructed in H as [WF E].
  assert (HL : (2 <= length (par_values p))%nat) by apply WF.
  rewrite E. destruct (eval_cases (par_path p) _ _ _ WF s) as [E'|[E'|(i & s0 & v0 & s1 & v1 & D0 & D1 & H0 & H1)]].
  - rewrite E'. destruct (nth_error (par_values p) 0) eqn:V; [eauto|apply nth_error_None in V; lia].
  - rewrite E'. destruct (nth_error (par_values p) (length (par_values p) - 1)) eqn:V; [eauto|apply nth_error_None in V; lia].
  - destruct (eval_interior (par_path p) _ _ _ WF _ _ _ _ _ _ D0 D1 H0 H1) as (v & Ev & _). eauto.
Qed.

Definition collection_ok (ps : list parameter) : Prop :=
  NoDup (map par_path ps) /\ Forall proper ps.

Lemma call_make_proper c p : call_make c = Some p -> proper p /\ par_path p = call_path c.
Proof.
  destruct c; simpl; intro H.
  - injection H as <-. split; [left; eauto|reflexivity].
  - pose proof H as H'. apply constructed in H' as [_ ->]. split; [right; exact H|reflexivity].
Qed.

Lemma NoDup_snoc {A} (l : list A) x : NoDup l -> ~ In x l -> NoDup (l ++ [x]).
Proof.
  induction l as [|y l IH]; intros H Hx; simpl; [constructor; [auto|constructor]|].
  inversion H; subst. constructor.
  - rewrite in_app_iff. intros [?|[->|[]]]; auto. apply Hx. now left.
  - apply IH; auto. intro. apply Hx. now right.
Qed.

Lemma add_one_ok ps c : collection_ok ps -> collection_ok (add_one ps c).
Proof.
  intros [H1 H2]. unfold add_one, add_parameter.
  destruct (existsb (fun p => String.eqb (par_path p) (call_path c)) ps) eqn:E; [split; auto|].
  destruct (call_make c) as [p|] eqn:Em; simpl; [|split; auto].
  destruct (call_make_proper c p Em) as [Hp Hpath].
  split.
  - rewrite map_app. simpl. apply NoDup_snoc; [exact H1|]. intro Hin. apply in_map_iff in Hin as (q & Hq & Hin).
    apply not_true_iff_false in E. apply E. apply existsb_exists. exists q. split; [exact Hin|].
    apply String.eqb_eq. congruence.
  - apply Forall_app. auto.
Qed.
Lemma add_many_ok cs : forall ps, collection_ok ps -> collection_ok (add_many ps cs).
Proof. induction cs as [|c cs IH]; intros ps H; simpl; [exact H|]. apply IH, add_one_ok, H. Qed.

(** Positions of aliases and values agree. *)
Lemma flat_map_align ps : Forall (fun p => length (par_aliases p) = length (par_values p)) ps ->
  length (get_all_aliases ps) = length (get_all ps) /\
  forall k a, nth_error (get_all_aliases ps) k = Some a ->
  exists p i, In p ps /\ nth_error (par_aliases p) i = Some a /\ nth_error (par_values p) i = nth_error (get_all ps) k.
Proof.
  unfold get_all_aliases, get_all. induction 1 as [|p ps Hp _ IH]; simpl.
  - split; [reflexivity|]. intros [|k] a H; discriminate.
  - destruct IH as [IL IH]. split; [rewrite !app_length; lia|]. intros k a Hk.
    destruct (Nat.lt_ge_cases k (length (par_aliases p))) as [Hlt|Hge].
    + rewrite nth_error_app1 in Hk by exact Hlt. exists p, k. rewrite nth_error_app1 by lia. auto.
    + rewrite nth_error_app2 in Hk by exact Hge. apply IH in Hk as (q & i & Hq & Ha & Hv).
      exists q, i. rewrite nth_error_app2 by lia. rewrite <- Hp. auto.
Qed.

Lemma added_aligned cs : let ps := add_many [] cs in
  NoDup (map par_path ps) /\ length (get_all_aliases ps) = number_of_parameters ps /\
  (forall k a, nth_error (get_all_aliases ps) k = Some a ->
     exists p i, In p ps /\ nth_error (par_aliases p) i = Some a /\ nth_error (par_values p) i = nth_error (get_all ps) k) /\
  (forall p s, In p ps -> exists v, par_eval p s = Some v).
Proof.
  intro ps. assert (H : collection_ok ps) by (apply add_many_ok; split; constructor).
  destruct H as [H1 H2].
  destruct (flat_map_align ps) as [A1 A2].
  { eapply Forall_impl; [|exact H2]. intros p Hp. now apply proper_aliases. }
  split; [exact H1|]. split; [rewrite number_of_parameters_sum; exact A1|]. split; [exact A2|].
  intros p s Hp. apply proper_eval. rewrite Forall_forall in H2. auto.
Qed.

Lemma add_duplicate ps c p : In p ps -> par_path p = call_path c -> add_parameter ps (call_path c) (call_make c) = None.
Proof.
  intros Hin Hp. unfold add_parameter.
  assert (existsb (fun p => String.eqb (par_path p) (call_path c)) ps = true) as ->; [|reflexivity].
  apply existsb_exists. exists p. split; [exact Hin|]. now apply String.eqb_eq.
Qed.
