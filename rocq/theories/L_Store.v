(** Proofs about the variable store. *)
From stdpp Require Import base strings gmap list.
From Coq Require Import ZArith Ascii.
From Verif Require Import M_Regex S_Regex L_Regex M_Store S_Store.

Section Proofs.
Context {K F T N : Type}.
Implicit Types (s : store K F T N) (n : string).
Notation mem := (gmap string (var K F T N)).

(** Pointwise form of [represents]. *)
Inductive rep1 : option K -> option F -> option T -> option N -> option (list N) ->
  option (var K F T N) -> Prop :=
| rep_none : rep1 None None None None None None
| rep_kart k : rep1 (Some k) None None None None (Some (VarKart k))
| rep_f1 c : rep1 None (Some c) None None None (Some (VarF1 c))
| rep_track t : rep1 None None (Some t) None None (Some (VarTrack t))
| rep_scalar x : rep1 None None None (Some x) None (Some (VarScalar x))
| rep_vector l : rep1 None None None None (Some l) (Some (VarVector l)).

Definition rep s n ov :=
  rep1 (t_kart s !! n) (t_f1 s !! n) (t_track s !! n) (t_scalar s !! n) (t_vector s !! n) ov.

Lemma represents_pw s (m : mem) : represents s m <-> forall n, rep s n (m !! n).
Proof.
  unfold represents, rep. split; intros H n.
  - assert (Hh : forall v, holds s n v -> m !! n = Some v) by (intro v; apply H).
    destruct (m !! n) as [v|] eqn:E.
    + pose proof (proj1 (H n v) E) as Hv.
      assert (Hu : forall w, holds s n w -> w = v).
      { intros w Hw. apply H in Hw. congruence. }
      clear Hh.
      destruct (t_kart s !! n) as [k|] eqn:E1; [specialize (Hu (VarKart k) E1) as Q1|];
      destruct (t_f1 s !! n) as [c|] eqn:E2; try (specialize (Hu (VarF1 c) E2) as Q2);
      destruct (t_track s !! n) as [t|] eqn:E3; try (specialize (Hu (VarTrack t) E3) as Q3);
      destruct (t_scalar s !! n) as [x|] eqn:E4; try (specialize (Hu (VarScalar x) E4) as Q4);
      destruct (t_vector s !! n) as [l|] eqn:E5; try (specialize (Hu (VarVector l) E5) as Q5);
      subst; try discriminate; try constructor.
      destruct v; simpl in Hv; congruence.
    + destruct (t_kart s !! n) as [k|] eqn:E1; [discriminate (Hh (VarKart k) E1)|].
      destruct (t_f1 s !! n) as [c|] eqn:E2; [discriminate (Hh (VarF1 c) E2)|].
      destruct (t_track s !! n) as [t|] eqn:E3; [discriminate (Hh (VarTrack t) E3)|].
      destruct (t_scalar s !! n) as [x|] eqn:E4; [discriminate (Hh (VarScalar x) E4)|].
      destruct (t_vector s !! n) as [l|] eqn:E5; [discriminate (Hh (VarVector l) E5)|].
      constructor.
  - intro v. specialize (H n). inversion H as [E1 E2 E3 E4 E5 E6|? E1 E2 E3 E4 E5 E6
      |? E1 E2 E3 E4 E5 E6|? E1 E2 E3 E4 E5 E6|? E1 E2 E3 E4 E5 E6|? E1 E2 E3 E4 E5 E6];
      destruct v; simpl; split; congruence.
Qed.

Lemma rep_exists s n ov :
  rep s n ov -> exists_in_tables s n = match ov with Some _ => true | None => false end.
Proof.
  unfold rep, exists_in_tables, has. intro H.
  inversion H; reflexivity.
Qed.

Lemma insert_new_fresh {A} (m : gmap string A) n a :
  m !! n = None -> insert_new m n a = <[n := a]> m.
Proof. unfold insert_new. now intros ->. Qed.

Lemma has_none {A} (m : gmap string A) n : m !! n = None -> has m n = false.
Proof. unfold has. now intros ->. Qed.

(** The five-table view after one table has been updated at one name. *)
Lemma rep_insert_none s n : rep s n None ->
  t_kart s !! n = None /\ t_f1 s !! n = None /\ t_track s !! n = None /\
  t_scalar s !! n = None /\ t_vector s !! n = None.
Proof. unfold rep. intro H; inversion H; auto. Qed.

Ltac upd n n' :=
  destruct (decide (n' = n)) as [->|?];
  [ rewrite ?lookup_insert, ?lookup_delete | rewrite ?lookup_insert_ne, ?lookup_delete_ne by congruence ].

Ltac inv_rep H :=
  unfold rep in H; inversion H as [E1 E2 E3 E4 E5 E6|? E1 E2 E3 E4 E5 E6
      |? E1 E2 E3 E4 E5 E6|? E1 E2 E3 E4 E5 E6|? E1 E2 E3 E4 E5 E6|? E1 E2 E3 E4 E5 E6].

Lemma rep_set_kart s (m : mem) n k :
  (forall n, rep s n (m !! n)) -> (m !! n = None \/ exists k0, m !! n = Some (VarKart k0)) ->
  forall n', rep (set_kart s (<[n := k]> (t_kart s))) n' (<[n := VarKart k]> m !! n').
Proof.
  intros H Hn n'. unfold rep, set_kart; simpl. upd n n'.
  - specialize (H n). destruct Hn as [Hn|[k0 Hn]]; rewrite Hn in H; inv_rep H; constructor.
  - apply H.
Qed.
Lemma rep_set_f1 s (m : mem) n c :
  (forall n, rep s n (m !! n)) -> (m !! n = None \/ exists c0, m !! n = Some (VarF1 c0)) ->
  forall n', rep (set_f1 s (<[n := c]> (t_f1 s))) n' (<[n := VarF1 c]> m !! n').
Proof.
  intros H Hn n'. unfold rep, set_f1; simpl. upd n n'.
  - specialize (H n). destruct Hn as [Hn|[k0 Hn]]; rewrite Hn in H; inv_rep H; constructor.
  - apply H.
Qed.
Lemma rep_set_track s (m : mem) n t :
  (forall n, rep s n (m !! n)) -> (m !! n = None \/ exists t0, m !! n = Some (VarTrack t0)) ->
  forall n', rep (set_track s (<[n := t]> (t_track s))) n' (<[n := VarTrack t]> m !! n').
Proof.
  intros H Hn n'. unfold rep, set_track; simpl. upd n n'.
  - specialize (H n). destruct Hn as [Hn|[k0 Hn]]; rewrite Hn in H; inv_rep H; constructor.
  - apply H.
Qed.
Lemma rep_set_scalar s (m : mem) n x :
  (forall n, rep s n (m !! n)) -> (m !! n = None \/ exists x0, m !! n = Some (VarScalar x0)) ->
  forall n', rep (set_scalar s (<[n := x]> (t_scalar s))) n' (<[n := VarScalar x]> m !! n').
Proof.
  intros H Hn n'. unfold rep, set_scalar; simpl. upd n n'.
  - specialize (H n). destruct Hn as [Hn|[k0 Hn]]; rewrite Hn in H; inv_rep H; constructor.
  - apply H.
Qed.
Lemma rep_set_vector s (m : mem) n l :
  (forall n, rep s n (m !! n)) -> (m !! n = None \/ exists l0, m !! n = Some (VarVector l0)) ->
  forall n', rep (set_vector s (<[n := l]> (t_vector s))) n' (<[n := VarVector l]> m !! n').
Proof.
  intros H Hn n'. unfold rep, set_vector; simpl. upd n n'.
  - specialize (H n). destruct Hn as [Hn|[k0 Hn]]; rewrite Hn in H; inv_rep H; constructor.
  - apply H.
Qed.

Lemma erase_matching_lookup {A} r (m : gmap string A) n :
  erase_matching r m !! n = if matches_name r n then None else m !! n.
Proof.
  unfold erase_matching. destruct (matches_name r n) eqn:E.
  - apply map_filter_lookup_None. right. intros x _ Hx. simpl in Hx. congruence.
  - destruct (m !! n) as [x|] eqn:Ex.
    + apply map_filter_lookup_Some. split; auto.
    + apply map_filter_lookup_None. now left.
Qed.

Lemma size_of_int_small z : (0 <= z < 2 ^ 31)%Z -> size_of_int z = z.
Proof. intro H. unfold size_of_int. apply Z.mod_small. lia. Qed.

(** One step refines the single-map specification. *)
Lemma step_refines e s (m : mem) c s' r :
  represents s m -> supported c -> step e s c = (s', r) ->
  exists m', spec_step e m c m' r /\ represents s' m'.
Proof.
  intros HR HS. rewrite represents_pw in HR.
  pose proof (fun n => rep_exists s n (m !! n) (HR n)) as HX.
  assert (Hsame : represents s m) by (now apply (proj2 (represents_pw _ _))).
  destruct c as [n file|n ty|n file|n x|n len data|a b|a b|p|n|n|n len|n|n len v|n|n p x|n p al x
    |n p al x g|n tr|n side sd wd|n tr lr|pr|n tr uc ok|n ok|n ok]; simpl in HS; unfold step.
  - (* create vehicle *)
    unfold create_vehicle_from_xml. rewrite (HX n). unfold spec_step, creates.
    destruct (m !! n) as [v|] eqn:En.
    { intros [= <- <-]. exists m; auto. }
    pose proof (HR n) as Hn. rewrite En in Hn. apply rep_insert_none in Hn as (N1&N2&N3&N4&N5).
    unfold loaded_vehicle. destruct file as [f|]; [|intros [= <- <-]; exists m; auto].
    destruct (String.eqb (vf_type f) "kart-6dof").
    { destruct (vf_kart f) as [k|]; simpl; [|intros [= <- <-]; exists m; auto].
      rewrite has_none by exact N1. rewrite insert_new_fresh by exact N1. intros [= <- <-].
      eexists; split; [eauto|]. apply (proj2 (represents_pw _ _)). apply rep_set_kart; auto. }
    destruct (String.eqb (vf_type f) "f1-3dof"); [|intros [= <- <-]; exists m; auto].
    destruct (vf_f1 f) as [k|]; simpl; [|intros [= <- <-]; exists m; auto].
    rewrite has_none by exact N2. rewrite insert_new_fresh by exact N2. intros [= <- <-].
    eexists; split; [eauto|]. apply (proj2 (represents_pw _ _)). apply rep_set_f1; auto.
  - (* create empty *)
    unfold create_vehicle_empty. rewrite (HX n). unfold spec_step, creates.
    destruct (m !! n) as [v|] eqn:En.
    { intros [= <- <-]. exists m; auto. }
    pose proof (HR n) as Hn. rewrite En in Hn. apply rep_insert_none in Hn as (N1&N2&N3&N4&N5).
    destruct (String.eqb_spec ty "kart-6dof") as [->|].
    { intros [= <- <-]. simpl. exists m; auto. }
    destruct (String.eqb ty "f1-3dof"); [|intros [= <- <-]; exists m; auto].
    rewrite insert_new_fresh by exact N2. intros [= <- <-].
    eexists; split; [eauto|]. apply (proj2 (represents_pw _ _)). apply rep_set_f1; auto.
  - (* create track *)
    unfold create_track_from_xml. rewrite (HX n). unfold spec_step, creates.
    destruct (m !! n) as [v|] eqn:En.
    { intros [= <- <-]. exists m; auto. }
    pose proof (HR n) as Hn. rewrite En in Hn. apply rep_insert_none in Hn as (N1&N2&N3&N4&N5).
    unfold loaded_track. destruct file as [f|]; [|intros [= <- <-]; exists m; auto].
    destruct (String.eqb (tf_format f) "discrete"); [|intros [= <- <-]; exists m; auto].
    destruct (tf_track f) as [k|]; simpl; [|intros [= <- <-]; exists m; auto].
    rewrite insert_new_fresh by exact N3. intros [= <- <-].
    eexists; split; [eauto|]. apply (proj2 (represents_pw _ _)). apply rep_set_track; auto.
  - unfold create_scalar. rewrite (HX n). unfold spec_step, creates.
    destruct (m !! n) as [v|] eqn:En.
    { intros [= <- <-]. exists m; auto. }
    pose proof (HR n) as Hn. rewrite En in Hn. apply rep_insert_none in Hn as (N1&N2&N3&N4&N5).
    rewrite insert_new_fresh by exact N4. intros [= <- <-].
    eexists; split; [eauto|]. apply (proj2 (represents_pw _ _)). apply rep_set_scalar; auto.
  - unfold create_vector. rewrite (HX n). unfold spec_step, creates.
    destruct (m !! n) as [v|] eqn:En.
    { intros [= <- <-]. exists m; auto. }
    pose proof (HR n) as Hn. rewrite En in Hn. apply rep_insert_none in Hn as (N1&N2&N3&N4&N5).
    destruct (Z.ltb_spec len 0); [lia|]. destruct (Z.ltb_spec (Z.of_nat (length data)) len); [lia|].
    simpl. rewrite insert_new_fresh by exact N5. intros [= <- <-].
    eexists; split; [eauto|]. apply (proj2 (represents_pw _ _)). apply rep_set_vector; auto.
  - (* copy *)
    unfold copy_variable. rewrite (HX b). unfold spec_step, creates.
    destruct (m !! b) as [v|] eqn:En.
    { intros [= <- <-]. exists m; auto. }
    pose proof (HR b) as Hn. rewrite En in Hn. apply rep_insert_none in Hn as (N1&N2&N3&N4&N5).
    pose proof (HR a) as Ha. inv_rep Ha;
      rewrite ?insert_new_fresh by assumption; intros [= <- <-];
      (eexists; split; [eauto|]; first [exact Hsame | apply (proj2 (represents_pw _ _));
       first [apply rep_set_kart|apply rep_set_f1|apply rep_set_track|apply rep_set_scalar
             |apply rep_set_vector]; auto]).
  - (* move *)
    unfold move_variable. rewrite (HX b). unfold spec_step.
    destruct (m !! b) as [v|] eqn:En.
    { intros [= <- <-]. exists m; auto. }
    pose proof (HR b) as Hn. rewrite En in Hn. apply rep_insert_none in Hn as (N1&N2&N3&N4&N5).
    pose proof (HR a) as Ha. inv_rep Ha;
      rewrite ?insert_new_fresh by assumption; intros [= <- <-];
      (eexists; split; [eauto|]; first [exact Hsame | apply (proj2 (represents_pw _ _))]);
      (assert (a <> b) by (intros ->; congruence));
      intro n'; unfold rep; simpl;
      (destruct (decide (n' = a)) as [->|?];
       [ rewrite lookup_delete, (lookup_insert_ne _ b a), lookup_delete by congruence;
         rewrite <- ?E1, <- ?E2, <- ?E3, <- ?E4, <- ?E5; constructor
       | rewrite lookup_delete_ne by congruence;
         destruct (decide (n' = b)) as [->|?];
         [ rewrite !lookup_insert, ?N1, ?N2, ?N3, ?N4, ?N5; constructor
         | rewrite !lookup_insert_ne, lookup_delete_ne by congruence; apply HR ] ]).
  - (* delete *)
    unfold delete_variable. destruct (compile_glob p HS) as (re & -> & Hre).
    intros [= <- <-]. unfold spec_step.
    exists (erase_matching re m). split; [split; [reflexivity|]|].
    + intros n v. rewrite erase_matching_lookup, <- Hre. destruct (matches_name re n); naive_solver.
    + apply (proj2 (represents_pw _ _)). intro n. unfold rep; simpl. rewrite !erase_matching_lookup.
      destruct (matches_name re n); [constructor | apply HR].
  - intros [= <- <-]. exists m. split; [|assumption]. split; [reflexivity|].
    unfold download_scalar. pose proof (HR n) as Ha. inv_rep Ha; reflexivity.
  - intros [= <- <-]. exists m. split; [|assumption]. split; [reflexivity|].
    unfold download_vector_size. pose proof (HR n) as Ha. inv_rep Ha; reflexivity.
  - intros [= <- <-]. exists m. split; [|assumption]. split; [reflexivity|].
    unfold download_vector. rewrite size_of_int_small by exact HS.
    pose proof (HR n) as Ha. inv_rep Ha; try reflexivity.
    destruct (Z.eqb_spec (Z.of_nat (length l)) len), (decide (len = Z.of_nat (length l)));
      congruence.
  - intros [= <- <-]. exists m. split; [|assumption]. split; [reflexivity|].
    unfold track_download_length. pose proof (HR n) as Ha. inv_rep Ha; reflexivity.
  - intros [= <- <-]. exists m. split; [|assumption]. split; [reflexivity|].
    unfold track_download_data. rewrite size_of_int_small by exact HS.
    pose proof (HR n) as Ha. inv_rep Ha; try reflexivity.
    destruct (e_track_data e t v);
    destruct (Z.eqb_spec len (Z.of_nat (e_track_points e t)));
      try (destruct (decide (len = Z.of_nat (e_track_points e t)))); congruence.
  - intros [= <- <-]. exists m. split; [|assumption]. split; [reflexivity|].
    unfold variable_type, has. pose proof (HR n) as Ha. inv_rep Ha; reflexivity.
  - unfold vehicle_set_parameter, spec_step. pose proof (HR n) as Ha.
    destruct (t_f1 s !! n) as [c|] eqn:Ef.
    + inv_rep Ha; try congruence. assert (c0 = c) by congruence; subst c0.
      destruct (e_f1_set e c p x) as [c' b]. intros [= <- <-]. eexists; split; [eauto|].
      apply (proj2 (represents_pw _ _)). apply rep_set_f1; eauto.
    + intros [= <- <-]. exists m. split; [|assumption].
      inv_rep Ha; try (rewrite <- E2 in Ef; discriminate); auto.
  - unfold vehicle_declare_constant, spec_step. pose proof (HR n) as Ha.
    destruct (t_f1 s !! n) as [c|] eqn:Ef; [|destruct (t_kart s !! n) as [k|] eqn:Ek].
    + inv_rep Ha; try congruence. assert (c0 = c) by congruence; subst c0.
      destruct (e_f1_add e c p al x) as [c' b]. intros [= <- <-]. eexists; split; [eauto|].
      apply (proj2 (represents_pw _ _)). apply rep_set_f1; eauto.
    + inv_rep Ha; try congruence. assert (k0 = k) by congruence; subst k0.
      destruct (e_kart_add e k p al x) as [c' b]. intros [= <- <-]. eexists; split; [eauto|].
      apply (proj2 (represents_pw _ _)). apply rep_set_kart; eauto.
    + intros [= <- <-]. exists m. split; [|assumption]. inv_rep Ha; try congruence; auto.
  - unfold vehicle_declare_variable, spec_step. pose proof (HR n) as Ha.
    destruct (t_f1 s !! n) as [c|] eqn:Ef; [|destruct (t_kart s !! n) as [k|] eqn:Ek].
    + inv_rep Ha; try congruence. assert (c0 = c) by congruence; subst c0.
      destruct (e_f1_addv e c p al x g) as [c' b]. intros [= <- <-]. eexists; split; [eauto|].
      apply (proj2 (represents_pw _ _)). apply rep_set_f1; eauto.
    + inv_rep Ha; try congruence. assert (k0 = k) by congruence; subst k0.
      destruct (e_kart_addv e k p al x g) as [c' b]. intros [= <- <-]. eexists; split; [eauto|].
      apply (proj2 (represents_pw _ _)). apply rep_set_kart; eauto.
    + intros [= <- <-]. exists m. split; [|assumption]. inv_rep Ha; try congruence; auto.
  - unfold vehicle_change_track, spec_step. pose proof (HR n) as Ha. pose proof (HR tr) as Ht.
    destruct (t_kart s !! n) as [k|] eqn:Ek; [|destruct (t_f1 s !! n) as [c|] eqn:Ef].
    + inv_rep Ha; try congruence. assert (k0 = k) by congruence; subst k0.
      destruct (t_track s !! tr) as [t|] eqn:Et.
      * (unfold rep in Ht; inversion Ht); try congruence. assert (t0 = t) by congruence; subst t0.
        destruct (e_kart_track e k t) as [c' b]. intros [= <- <-]. eexists; split; [eauto|].
        apply (proj2 (represents_pw _ _)). apply rep_set_kart; eauto.
      * intros [= <- <-]. exists m. split; [|assumption].
        (unfold rep in Ht; inversion Ht); try congruence; auto.
    + inv_rep Ha; try congruence. assert (c0 = c) by congruence; subst c0.
      destruct (t_track s !! tr) as [t|] eqn:Et.
      * (unfold rep in Ht; inversion Ht); try congruence. assert (t0 = t) by congruence; subst t0.
        destruct (e_f1_track e c t) as [c' b]. intros [= <- <-]. eexists; split; [eauto|].
        apply (proj2 (represents_pw _ _)). apply rep_set_f1; eauto.
      * intros [= <- <-]. exists m. split; [|assumption].
        (unfold rep in Ht; inversion Ht); try congruence; auto.
    + intros [= <- <-]. exists m. split; [|assumption]. inv_rep Ha; try congruence; auto.
  - unfold track_set_limit, spec_step. pose proof (HR n) as Ha.
    destruct (t_track s !! n) as [t|] eqn:Et.
    + inv_rep Ha; try congruence. assert (t0 = t) by congruence; subst t0.
      destruct (String.eqb_spec side "left") as [->|Hl].
      * destruct (e_track_limit e t true sd wd) as [c' b]. intros [= <- <-].
        eexists; split; [rewrite decide_True by auto; eauto|].
        apply (proj2 (represents_pw _ _)). apply rep_set_track; eauto.
      * destruct (String.eqb_spec side "right") as [->|Hr].
        -- destruct (e_track_limit e t false sd wd) as [c' b]. intros [= <- <-].
           eexists; split; [rewrite decide_True by auto; eauto|].
           apply (proj2 (represents_pw _ _)). apply rep_set_track; eauto.
        -- intros [= <- <-]. exists m. rewrite decide_False by tauto. auto.
    + intros [= <- <-]. exists m. split; [|assumption]. inv_rep Ha; try congruence; auto.
  - destruct HS.
  - destruct HS.
  - unfold propagate_vehicle, spec_step. pose proof (HR n) as Ha. pose proof (HR tr) as Ht.
    destruct uc.
    2: { destruct (t_kart s !! n) as [k|] eqn:Ek; [|destruct (t_f1 s !! n) as [c|] eqn:Ef];
         intros [= <- <-]; exists m; (split; [|assumption]); (split; [reflexivity|]);
         inv_rep Ha; try congruence; auto. }
    destruct (t_kart s !! n) as [k|] eqn:Ek; [|destruct (t_f1 s !! n) as [c|] eqn:Ef].
    + inv_rep Ha; try congruence. assert (k0 = k) by congruence; subst k0.
      destruct (t_track s !! tr) as [t|] eqn:Et.
      * (unfold rep in Ht; inversion Ht); try congruence. assert (t0 = t) by congruence; subst t0.
        destruct (e_kart_track e k t) as [c' b]. intros [= <- <-]. eexists; split; [eauto|].
        apply (proj2 (represents_pw _ _)). apply rep_set_kart; eauto.
      * intros [= <- <-]. exists m. split; [|assumption].
        (unfold rep in Ht; inversion Ht); try congruence; auto.
    + inv_rep Ha; try congruence. assert (c0 = c) by congruence; subst c0.
      destruct (t_track s !! tr) as [t|] eqn:Et.
      * (unfold rep in Ht; inversion Ht); try congruence. assert (t0 = t) by congruence; subst t0.
        destruct (e_f1_track e c t) as [c' b]. intros [= <- <-]. eexists; split; [eauto|].
        apply (proj2 (represents_pw _ _)). apply rep_set_f1; eauto.
      * intros [= <- <-]. exists m. split; [|assumption].
        (unfold rep in Ht; inversion Ht); try congruence; auto.
    + intros [= <- <-]. exists m. split; [|assumption]. inv_rep Ha; try congruence; auto.
  - unfold vehicle_solve, has, spec_step. pose proof (HR n) as Ha.
    destruct (t_kart s !! n) as [k|] eqn:Ek; [|destruct (t_f1 s !! n) as [c|] eqn:Ef];
         intros [= <- <-]; exists m; (split; [|assumption]); (split; [reflexivity|]);
         inv_rep Ha; try congruence; auto.
  - unfold vehicle_solve, has, spec_step. pose proof (HR n) as Ha.
    destruct (t_kart s !! n) as [k|] eqn:Ek; [|destruct (t_f1 s !! n) as [c|] eqn:Ef];
         intros [= <- <-]; exists m; (split; [|assumption]); (split; [reflexivity|]);
         inv_rep Ha; try congruence; auto.
Qed.

Lemma run_refines e cs : forall s (m : mem) s' rs,
  represents s m -> Forall supported cs -> run e s cs = (s', rs) ->
  exists m', spec_run e m cs m' rs /\ represents s' m'.
Proof.
  induction cs as [|c cs IH]; intros s m s' rs HR HF; simpl.
  - intros [= <- <-]. exists m. split; [constructor|assumption].
  - inversion HF; subst. destruct (step e s c) as [s1 r] eqn:Es.
    destruct (run e s1 cs) as [s2 rs2] eqn:Er. intros [= <- <-].
    destruct (step_refines e s m c s1 r HR H1 Es) as (m1 & Hs & HR1).
    destruct (IH s1 m1 s2 rs2 HR1 H2 Er) as (m2 & Hr & HR2).
    exists m2. split; [econstructor; eauto | assumption].
Qed.

Lemma represents_empty : represents (empty_store : store K F T N) ∅.
Proof.
  intros n v. rewrite lookup_empty. split; [discriminate|].
  destruct v; simpl; rewrite lookup_empty; discriminate.
Qed.

Lemma represents_one_kind s (m : mem) : represents s m -> one_kind s.
Proof. intros H n v w Hv Hw. apply H in Hv, Hw. congruence. Qed.

End Proofs.
