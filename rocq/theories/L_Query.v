(** Lemmas for P_Query. *)
From stdpp Require Import base strings gmap list.
From Coq Require Import ZArith Ascii.
From Verif Require Import M_Regex M_Store S_Store M_Query S_Query.

Section Rel.
Context {A : Type} (R : A -> A -> Prop).
Implicit Types m : gmap string A.

Lemma rel_refl m : (forall a, R a a) -> rel R m m.
Proof. intros H n. destruct (m !! n); auto. Qed.
Lemma rel_has m m' n : rel R m m' -> has m n = has m' n.
Proof. intros H. unfold has. specialize (H n). destruct (m !! n), (m' !! n); tauto. Qed.
Lemma rel_insert m m' n a a' : rel R m m' -> R a a' -> rel R (<[n := a]> m) (<[n := a']> m').
Proof.
  intros H HR k. destruct (decide (n = k)) as [<-|NE].
  - rewrite !lookup_insert. exact HR.
  - rewrite !lookup_insert_ne by exact NE. apply H.
Qed.
Lemma rel_insert_new m m' n a a' : rel R m m' -> R a a' -> rel R (insert_new m n a) (insert_new m' n a').
Proof.
  intros H HR. unfold insert_new. pose proof (H n) as Hn.
  destruct (m !! n), (m' !! n); try contradiction; [exact H|]. apply rel_insert; assumption.
Qed.
Lemma rel_delete m m' n : rel R m m' -> rel R (delete n m) (delete n m').
Proof.
  intros H k. destruct (decide (n = k)) as [<-|NE].
  - rewrite !lookup_delete. exact I.
  - rewrite !lookup_delete_ne by exact NE. apply H.
Qed.
Lemma rel_erase m m' r : rel R m m' -> rel R (erase_matching r m) (erase_matching r m').
Proof.
  intros H n. unfold erase_matching. pose proof (H n) as Hn.
  destruct (m !! n) as [a|] eqn:E, (m' !! n) as [b|] eqn:E'; try contradiction.
  - destruct (matches_name r n) eqn:M.
    + rewrite !map_filter_lookup_None_2; [exact I| |].
      * right. intros x Hx Hy. change (matches_name r n = false) in Hy. congruence.
      * right. intros x Hx Hy. change (matches_name r n = false) in Hy. congruence.
    + rewrite (map_filter_lookup_Some_2 _ _ _ a) by assumption.
      rewrite (map_filter_lookup_Some_2 _ _ _ b) by assumption. exact Hn.
  - rewrite !map_filter_lookup_None_2; [exact I| |]; left; assumption.
Qed.
End Rel.

Section Same.
Context {K F T N : Type} (e : env K F T N) (RK : K -> K -> Prop) (RF : F -> F -> Prop).
Context (HI : indistinguishable e RK RF).
Notation same := (same_store RK RF).
Implicit Types s : store K F T N.

Lemma RK_refl k : RK k k. Proof using HI. apply HI. Qed.
Lemma RF_refl k : RF k k. Proof using HI. apply HI. Qed.

Lemma same_refl s : same s s.
Proof using HI. repeat split; apply rel_refl; [apply RK_refl|apply RF_refl]. Qed.

Lemma same_exists s s' n : same s s' -> exists_in_tables s n = exists_in_tables s' n.
Proof.
  intros (HK & HF & Ht & Hs & Hv). unfold exists_in_tables.
  rewrite (rel_has RK _ _ n HK), (rel_has RF _ _ n HF), Ht, Hs, Hv. reflexivity.
Qed.

Lemma same_kart s s' m m' : same s s' -> rel RK m m' -> same (set_kart s m) (set_kart s' m').
Proof. intros (HK & HF & Ht & Hs & Hv) H. repeat split; assumption. Qed.
Lemma same_f1 s s' m m' : same s s' -> rel RF m m' -> same (set_f1 s m) (set_f1 s' m').
Proof. intros (HK & HF & Ht & Hs & Hv) H. repeat split; assumption. Qed.
Lemma same_track s s' m : same s s' -> same (set_track s m) (set_track s' m).
Proof. intros (HK & HF & Ht & Hs & Hv). repeat split; assumption. Qed.
Lemma same_scalar s s' m : same s s' -> same (set_scalar s m) (set_scalar s' m).
Proof. intros (HK & HF & Ht & Hs & Hv). repeat split; assumption. Qed.
Lemma same_vector s s' m : same s s' -> same (set_vector s m) (set_vector s' m).
Proof. intros (HK & HF & Ht & Hs & Hv). repeat split; assumption. Qed.

Definition agree (x x' : store K F T N * result N) : Prop := x.2 = x'.2 /\ same x.1 x'.1.

Lemma same_laptime s s' r : same s s' -> agree (store_laptime s r) (store_laptime s' r).
Proof.
  intros S. unfold store_laptime.
  assert (E : laptime_names_free s r = laptime_names_free s' r).
  { unfold laptime_names_free. induction (lr_variables r) as [|v vs IH]; [reflexivity|].
    assert (D : forallb (fun a => negb (exists_in_tables s (derivative_name (lr_prefix r) v a))) (lr_aliases r) =
                forallb (fun a => negb (exists_in_tables s' (derivative_name (lr_prefix r) v a))) (lr_aliases r)).
    { clear IH. induction (lr_aliases r) as [|a az IHa]; [reflexivity|].
      cbn [forallb]. rewrite IHa, (same_exists s s' _ S). reflexivity. }
    cbn [forallb]. rewrite IH, (same_exists s s' _ S), D. reflexivity. }
  rewrite E. destruct (laptime_names_free s' r); [|split; [reflexivity|exact S]].
  pose proof S as (HK & HF & Ht & Hs & Hv).
  cbn [t_scalar t_vector set_scalar set_vector]. rewrite Hs, Hv.
  destruct (save_integrals _ _ _) as [m2 ok].
  assert (S2 : same (set_scalar (set_scalar s (save_laptime r (t_scalar s'))) m2)
                 (set_scalar (set_scalar s' (save_laptime r (t_scalar s'))) m2))
    by (apply same_scalar, same_scalar, S).
  destruct ok; [|split; [reflexivity|exact S2]].
  destruct (compute_vectors _ _); [|split; [reflexivity|exact S2]].
  split; [reflexivity|]. cbn [fst]. apply same_vector, same_vector. exact S2.
Qed.

Lemma same_step s s' c : same s s' -> agree (step e s c) (step e s' c).
Proof using HI.
  intros S. pose proof S as (HK & HF & Ht & Hs & Hv).
  assert (R0 : forall r : result N, agree (s, r) (s', r)) by (intros; split; [reflexivity|exact S]).
  destruct HI as [Ek Ef iset iadd ikadd iaddv ikaddv itr iktr].
  destruct c; cbn [step].
  - unfold create_vehicle_from_xml. rewrite (same_exists s s' n S).
    destruct (exists_in_tables s' n); [apply R0|]. destruct file as [f|]; [|apply R0].
    destruct (String.eqb _ _).
    + destruct (vf_kart f) as [k|]; [|apply R0]. rewrite (rel_has RK _ _ n HK).
      destruct (has (t_kart s') n); [apply R0|]. split; [reflexivity|].
      apply same_kart; [exact S|]. apply rel_insert_new; [exact HK|apply Ek].
    + destruct (String.eqb _ _); [|apply R0].
      destruct (vf_f1 f) as [k|]; [|apply R0]. rewrite (rel_has RF _ _ n HF).
      destruct (has (t_f1 s') n); [apply R0|]. split; [reflexivity|].
      apply same_f1; [exact S|]. apply rel_insert_new; [exact HF|apply Ef].
  - unfold create_vehicle_empty. rewrite (same_exists s s' n S).
    destruct (exists_in_tables s' n); [apply R0|]. destruct (String.eqb _ _); [apply R0|].
    destruct (String.eqb _ _); [|apply R0]. split; [reflexivity|].
    apply same_f1; [exact S|]. apply rel_insert_new; [exact HF|apply Ef].
  - unfold create_track_from_xml. rewrite (same_exists s s' n S).
    destruct (exists_in_tables s' n); [apply R0|]. destruct file as [f|]; [|apply R0].
    destruct (String.eqb _ _); [|apply R0]. destruct (tf_track f); [|apply R0].
    rewrite Ht. split; [reflexivity|]. apply same_track, S.
  - unfold create_scalar. rewrite (same_exists s s' n S).
    destruct (exists_in_tables s' n); [apply R0|]. rewrite Hs. split; [reflexivity|]. apply same_scalar, S.
  - unfold create_vector. rewrite (same_exists s s' n S).
    destruct (exists_in_tables s' n); [apply R0|]. destruct (_ || _); [apply R0|].
    rewrite Hv. split; [reflexivity|]. apply same_vector, S.
  - unfold copy_variable. rewrite (same_exists s s' new S).
    destruct (exists_in_tables s' new); [apply R0|].
    pose proof (HK old) as Lk. pose proof (HF old) as Lf.
    destruct (t_kart s !! old), (t_kart s' !! old); try contradiction.
    { split; [reflexivity|]. apply same_kart; [exact S|]. apply rel_insert_new; assumption. }
    destruct (t_f1 s !! old), (t_f1 s' !! old); try contradiction.
    { split; [reflexivity|]. apply same_f1; [exact S|]. apply rel_insert_new; assumption. }
    rewrite Ht, Hs, Hv. destruct (t_track s' !! old); [split; [reflexivity|]; apply same_track, S|].
    destruct (t_vector s' !! old); [split; [reflexivity|]; apply same_vector, S|].
    destruct (t_scalar s' !! old); [split; [reflexivity|]; apply same_scalar, S|]. apply R0.
  - unfold move_variable. rewrite (same_exists s s' new S).
    destruct (exists_in_tables s' new); [apply R0|].
    pose proof (HK old) as Lk. pose proof (HF old) as Lf.
    destruct (t_kart s !! old), (t_kart s' !! old); try contradiction.
    { split; [reflexivity|]. apply same_kart; [exact S|]. apply rel_delete, rel_insert_new; assumption. }
    destruct (t_f1 s !! old), (t_f1 s' !! old); try contradiction.
    { split; [reflexivity|]. apply same_f1; [exact S|]. apply rel_delete, rel_insert_new; assumption. }
    rewrite Ht, Hs, Hv. destruct (t_track s' !! old); [split; [reflexivity|]; apply same_track, S|].
    destruct (t_vector s' !! old); [split; [reflexivity|]; apply same_vector, S|].
    destruct (t_scalar s' !! old); [split; [reflexivity|]; apply same_scalar, S|]. apply R0.
  - unfold delete_variable. destruct (compile pattern) as [r| |]; [|apply R0|apply R0].
    split; [reflexivity|]. cbn [fst]. split; [apply rel_erase, HK|]. split; [apply rel_erase, HF|].
    cbn. rewrite Ht, Hs, Hv. auto.
  - unfold download_scalar. rewrite Hs. apply R0.
  - unfold download_vector_size. rewrite Hv. apply R0.
  - unfold download_vector. rewrite Hv. apply R0.
  - unfold track_download_length. rewrite Ht. apply R0.
  - unfold track_download_data. rewrite Ht. apply R0.
  - unfold variable_type. rewrite (rel_has RF _ _ n HF), (rel_has RK _ _ n HK), Ht, Hs, Hv. apply R0.
  - unfold vehicle_set_parameter. pose proof (HF n) as Lf.
    destruct (t_f1 s !! n) as [c|], (t_f1 s' !! n) as [c'|]; try contradiction; [|apply R0].
    destruct (iset p x c c' Lf) as [G1 G2].
    destruct (e_f1_set e c p x) as [d b], (e_f1_set e c' p x) as [d' b']. cbn in G1, G2. subst b'.
    split; [reflexivity|]. apply same_f1; [exact S|]. apply rel_insert; assumption.
  - unfold vehicle_declare_constant. pose proof (HF n) as Lf. pose proof (HK n) as Lk.
    destruct (t_f1 s !! n) as [c|], (t_f1 s' !! n) as [c'|]; try contradiction.
    { destruct (iadd p alias x c c' Lf) as [G1 G2].
      destruct (e_f1_add e c p alias x) as [d b], (e_f1_add e c' p alias x) as [d' b']. cbn in G1, G2. subst b'.
      split; [reflexivity|]. apply same_f1; [exact S|]. apply rel_insert; assumption. }
    destruct (t_kart s !! n) as [c|], (t_kart s' !! n) as [c'|]; try contradiction; [|apply R0].
    destruct (ikadd p alias x c c' Lk) as [G1 G2].
    destruct (e_kart_add e c p alias x) as [d b], (e_kart_add e c' p alias x) as [d' b']. cbn in G1, G2. subst b'.
    split; [reflexivity|]. apply same_kart; [exact S|]. apply rel_insert; assumption.
  - unfold vehicle_declare_variable. pose proof (HF n) as Lf. pose proof (HK n) as Lk.
    destruct (t_f1 s !! n) as [c|], (t_f1 s' !! n) as [c'|]; try contradiction.
    { destruct (iaddv p aliases values mesh c c' Lf) as [G1 G2].
      destruct (e_f1_addv e c p aliases values mesh) as [d b], (e_f1_addv e c' p aliases values mesh) as [d' b'].
      cbn in G1, G2. subst b'.
      split; [reflexivity|]. apply same_f1; [exact S|]. apply rel_insert; assumption. }
    destruct (t_kart s !! n) as [c|], (t_kart s' !! n) as [c'|]; try contradiction; [|apply R0].
    destruct (ikaddv p aliases values mesh c c' Lk) as [G1 G2].
    destruct (e_kart_addv e c p aliases values mesh) as [d b], (e_kart_addv e c' p aliases values mesh) as [d' b'].
    cbn in G1, G2. subst b'.
    split; [reflexivity|]. apply same_kart; [exact S|]. apply rel_insert; assumption.
  - unfold vehicle_change_track. pose proof (HF n) as Lf. pose proof (HK n) as Lk. rewrite Ht.
    destruct (t_kart s !! n) as [c|], (t_kart s' !! n) as [c'|]; try contradiction.
    { destruct (t_track s' !! tr) as [t|]; [|apply R0]. destruct (iktr t c c' Lk) as [G1 G2].
      destruct (e_kart_track e c t) as [d b], (e_kart_track e c' t) as [d' b']. cbn in G1, G2. subst b'.
      split; [reflexivity|]. apply same_kart; [exact S|]. apply rel_insert; assumption. }
    destruct (t_f1 s !! n) as [c|], (t_f1 s' !! n) as [c'|]; try contradiction; [|apply R0].
    destruct (t_track s' !! tr) as [t|]; [|apply R0]. destruct (itr t c c' Lf) as [G1 G2].
    destruct (e_f1_track e c t) as [d b], (e_f1_track e c' t) as [d' b']. cbn in G1, G2. subst b'.
    split; [reflexivity|]. apply same_f1; [exact S|]. apply rel_insert; assumption.
  - unfold track_set_limit. rewrite Ht. destruct (t_track s' !! n) as [t|]; [|apply R0].
    destruct (String.eqb side "left").
    { destruct (e_track_limit e t true sdata wdata). split; [reflexivity|]. apply same_track, S. }
    destruct (String.eqb side "right"); [|apply R0].
    destruct (e_track_limit e t false sdata wdata). split; [reflexivity|]. apply same_track, S.
  - unfold optimal_laptime. pose proof (HF n) as Lf. pose proof (HK n) as Lk. rewrite Ht.
    destruct (t_kart s !! n) as [c|], (t_kart s' !! n) as [c'|]; try contradiction.
    { destruct (t_track s' !! tr) as [t|]; [|apply R0]. destruct (negb _); [apply R0|].
      destruct (iktr t c c' Lk) as [G1 G2].
      destruct (e_kart_track e c t) as [d b], (e_kart_track e c' t) as [d' b']. cbn in G1, G2. subst b'.
      assert (S1 : same (set_kart s (<[n := d]> (t_kart s))) (set_kart s' (<[n := d']> (t_kart s'))))
        by (apply same_kart; [exact S|]; apply rel_insert; assumption).
      destruct (b && lr_computed r); [apply same_laptime, S1|split; [reflexivity|exact S1]]. }
    destruct (t_f1 s !! n) as [c|], (t_f1 s' !! n) as [c'|]; try contradiction; [|apply R0].
    destruct (t_track s' !! tr) as [t|]; [|apply R0]. destruct (negb _); [apply R0|].
    destruct (itr t c c' Lf) as [G1 G2].
    destruct (e_f1_track e c t) as [d b], (e_f1_track e c' t) as [d' b']. cbn in G1, G2. subst b'.
    assert (S1 : same (set_f1 s (<[n := d]> (t_f1 s))) (set_f1 s' (<[n := d']> (t_f1 s'))))
      by (apply same_f1; [exact S|]; apply rel_insert; assumption).
    destruct (b && lr_computed r); [apply same_laptime, S1|split; [reflexivity|exact S1]].
  - unfold circuit_preprocessor. destruct (pr_computed r); [|apply R0].
    unfold prep_track_phase. rewrite Ht.
    assert (V : forall s1 s1', same s1 s1' -> agree (prep_vector_phase s1 r) (prep_vector_phase s1' r)).
    { intros s1 s1' S1. unfold prep_vector_phase. destruct (pr_prefix r); [|split; [reflexivity|exact S1]].
      pose proof S1 as (_ & _ & _ & _ & Hv1). rewrite Hv1.
      destruct (save_prep_vectors _ _ _ _) as [m ok]. split; [reflexivity|]. apply same_vector, S1. }
    destruct (pr_table r) as [n|].
    + destruct (has (t_track s') n); [apply R0|].
      assert (S1 : same (set_track s (insert_new (t_track s') n (pr_track r)))
                     (set_track s' (insert_new (t_track s') n (pr_track r)))) by apply same_track, S.
      destruct (pr_xml r) as [[|]|]; [apply V, S1|split; [reflexivity|exact S1]|apply V, S1].
    + destruct (pr_xml r) as [[|]|]; [apply V, S|apply R0|apply V, S].
  - unfold propagate_vehicle. pose proof (HF n) as Lf. pose proof (HK n) as Lk. rewrite Ht.
    destruct (t_kart s !! n) as [c|], (t_kart s' !! n) as [c'|]; try contradiction.
    { destruct use_circuit; [|apply R0].
      destruct (t_track s' !! tr) as [t|]; [|apply R0]. destruct (iktr t c c' Lk) as [G1 G2].
      destruct (e_kart_track e c t) as [d b], (e_kart_track e c' t) as [d' b']. cbn in G1, G2. subst b'.
      split; [reflexivity|]. apply same_kart; [exact S|]. apply rel_insert; assumption. }
    destruct (t_f1 s !! n) as [c|], (t_f1 s' !! n) as [c'|]; try contradiction; [|apply R0].
    destruct use_circuit; [|apply R0].
    destruct (t_track s' !! tr) as [t|]; [|apply R0]. destruct (itr t c c' Lf) as [G1 G2].
    destruct (e_f1_track e c t) as [d b], (e_f1_track e c' t) as [d' b']. cbn in G1, G2. subst b'.
    split; [reflexivity|]. apply same_f1; [exact S|]. apply rel_insert; assumption.
  - unfold vehicle_solve. rewrite (rel_has RK _ _ n HK), (rel_has RF _ _ n HF).
    destruct (has (t_kart s') n); [apply R0|]. destruct (has (t_f1 s') n); apply R0.
  - unfold vehicle_solve. rewrite (rel_has RK _ _ n HK), (rel_has RF _ _ n HF).
    destruct (has (t_kart s') n); [apply R0|]. destruct (has (t_f1 s') n); apply R0.
Qed.

Lemma same_trans s1 s2 s3 : same s1 s2 -> same s2 s3 -> same s1 s3.
Proof using HI.
  destruct HI as [Ek Ef _ _ _ _ _ _ _].
  intros (HK & HF & Ht & Hs & Hv) (HK' & HF' & Ht' & Hs' & Hv').
  split; [|split; [|split; [|split]]]; try congruence.
  - intros n. specialize (HK n). specialize (HK' n).
    destruct (t_kart s1 !! n), (t_kart s2 !! n), (t_kart s3 !! n); try tauto. etransitivity; eassumption.
  - intros n. specialize (HF n). specialize (HF' n).
    destruct (t_f1 s1 !! n), (t_f1 s2 !! n), (t_f1 s3 !! n); try tauto. etransitivity; eassumption.
Qed.

Context (qe : qenv K F T N) (HF : evaluation_forgets qe RK RF).

Lemma same_get_output s s' n q u pos p : same s s' ->
  (vehicle_get_output qe s n q u pos p).2 = (vehicle_get_output qe s' n q u pos p).2 /\
  same (vehicle_get_output qe s n q u pos p).1 s'.
Proof using HI HF.
  intros S. pose proof S as (Sk & Sf & St & Ss & Sv). unfold vehicle_get_output.
  pose proof (Sk n) as Lk. pose proof (Sf n) as Lf.
  assert (EK := i_kart_eq _ _ _ HI). assert (EF := i_f1_eq _ _ _ HI).
  destruct (t_kart s !! n) as [k|] eqn:E1, (t_kart s' !! n) as [k'|] eqn:E2; try contradiction.
  - unfold get_property. destruct (_ || _).
    + split; [reflexivity|]. cbn. apply (same_trans _ s); [|exact S].
      split; [|split; [|split; [|split]]]; try reflexivity; [|apply rel_refl, RF_refl].
      cbn. intros m. destruct (decide (n = m)) as [<-|NE].
      * rewrite lookup_insert, E1. reflexivity.
      * rewrite lookup_insert_ne by exact NE. destruct (t_kart s !! m); [reflexivity|exact I].
    + cbn. split.
      * rewrite (f_kart_outputs _ _ _ HF k k' _ _ _ Lk). reflexivity.
      * apply (same_trans _ s); [|exact S].
        split; [|split; [|split; [|split]]]; try reflexivity; [|apply rel_refl, RF_refl].
        cbn. intros m. destruct (decide (n = m)) as [<-|NE].
        -- rewrite lookup_insert, E1. symmetry. apply (f_kart_same _ _ _ HF).
        -- rewrite lookup_insert_ne by exact NE. destruct (t_kart s !! m); [reflexivity|exact I].
  - destruct (t_f1 s !! n) as [k|] eqn:E3, (t_f1 s' !! n) as [k'|] eqn:E4; try contradiction; [|split; [reflexivity|exact S]].
    unfold get_property. destruct (_ || _).
    + split; [reflexivity|]. cbn. apply (same_trans _ s); [|exact S].
      split; [apply rel_refl, RK_refl|]. split; [|split; [|split]]; try reflexivity.
      cbn. intros m. destruct (decide (n = m)) as [<-|NE].
      * rewrite lookup_insert, E3. reflexivity.
      * rewrite lookup_insert_ne by exact NE. destruct (t_f1 s !! m); [reflexivity|exact I].
    + cbn. split.
      * rewrite (f_f1_outputs _ _ _ HF k k' _ _ _ Lf). reflexivity.
      * apply (same_trans _ s); [|exact S].
        split; [apply rel_refl, RK_refl|]. split; [|split; [|split]]; try reflexivity.
        cbn. intros m. destruct (decide (n = m)) as [<-|NE].
        -- rewrite lookup_insert, E3. symmetry. apply (f_f1_same _ _ _ HF).
        -- rewrite lookup_insert_ne by exact NE. destruct (t_f1 s !! m); [reflexivity|exact I].
Qed.

Lemma same_sym s1 s2 : same s1 s2 -> same s2 s1.
Proof using HI.
  destruct HI as [Ek Ef _ _ _ _ _ _ _].
  intros (HK & HF' & Ht & Hs & Hv). split; [|split; [|split; [|split]]]; try congruence.
  - intros n. specialize (HK n). destruct (t_kart s1 !! n), (t_kart s2 !! n); try tauto. symmetry. exact HK.
  - intros n. specialize (HF' n). destruct (t_f1 s1 !! n), (t_f1 s2 !! n); try tauto. symmetry. exact HF'.
Qed.

Lemma same_qstep s s' c : fair RK RF c -> same s s' -> same (qstep e qe s c).1 (qstep e qe s' c).1.
Proof using HI HF.
  intros Hf S. destruct c as [f| | |]; cbn [qstep].
  - rewrite (Hf s s' S). pose proof (same_step s s' (f s') S) as [_ H].
    destruct (step e s (f s')), (step e s' (f s')). exact H.
  - exact S.
  - destruct (same_get_output s s' n q u pos p S) as [_ H].
    destruct (same_get_output s' s' n q u pos p (same_refl s')) as [_ H'].
    apply (same_trans _ s'); [exact H|]. apply same_sym. exact H'.
  - exact S.
Qed.

Lemma same_asks s c : asks c = true -> same (qstep e qe s c).1 s.
Proof using HI HF.
  destruct c as [f| | |]; cbn; try discriminate; intros _; try apply same_refl.
  destruct (same_get_output s s n q u pos p (same_refl s)) as [_ H]. exact H.
Qed.

Lemma same_answer s s' c : fair RK RF c -> (asks_for_text c = true -> files_forget qe RK RF) -> same s s' ->
  (qstep e qe s c).2 = (qstep e qe s' c).2.
Proof using HI HF.
  intros Hf Hx S. destruct c as [f|n|n q u pos p|n file]; cbn [qstep].
  - rewrite (Hf s s' S). pose proof (same_step s s' (f s') S) as [H _].
    destruct (step e s (f s')), (step e s' (f s')). cbn in *. congruence.
  - destruct (Hx eq_refl) as [Xk Xf]. pose proof S as (Sk & Sf & St & Ss & Sv). cbn. unfold print_variable.
    pose proof (Sk n) as Lk. pose proof (Sf n) as Lf.
    destruct (t_kart s !! n), (t_kart s' !! n); try contradiction; [rewrite (Xk _ _ Lk); reflexivity|].
    destruct (t_f1 s !! n), (t_f1 s' !! n); try contradiction; [rewrite (Xf _ _ Lf); reflexivity|].
    rewrite St, Ss, Sv. reflexivity.
  - apply (same_get_output s s' n q u pos p S).
  - destruct (Hx eq_refl) as [Xk Xf]. pose proof S as (Sk & Sf & St & Ss & Sv). cbn. unfold vehicle_save_as_xml.
    pose proof (Sk n) as Lk. pose proof (Sf n) as Lf.
    destruct (t_kart s !! n), (t_kart s' !! n); try contradiction; [rewrite (Xk _ _ Lk); reflexivity|].
    destruct (t_f1 s !! n), (t_f1 s' !! n); try contradiction; [rewrite (Xf _ _ Lf); reflexivity|]. reflexivity.
Qed.

Lemma same_run cs : forall s s', Forall (fair RK RF) cs -> same s s' ->
  same (qrun e qe s cs) (qrun e qe s' (List.filter (fun c => negb (asks c)) cs)).
Proof using HI HF.
  induction cs as [|c cs IH]; intros s s' Hf S; [exact S|].
  inversion_clear Hf as [|? ? Hc Hcs]. cbn [List.filter qrun].
  destruct (asks c) eqn:A; cbn [negb].
  - apply IH; [exact Hcs|]. apply (same_trans _ s); [apply same_asks, A|exact S].
  - cbn [qrun]. apply IH; [exact Hcs|]. apply same_qstep; assumption.
Qed.
End Same.
