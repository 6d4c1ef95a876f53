(** Proofs about saving and reloading the f1. *)
From Coq Require Import String QArith Bool Arith Lia Lqa List.
From Verif Require Import M_Param S_Param L_Param M_Tree S_Tree L_Tree.
Import ListNotations.
Local Open Scope string_scope.

(** *** Save and reload *)
Lemma nodupb_NoDup : forall l, nodupb l = true -> NoDup l.
Proof.
  induction l as [|a l IH]; cbn; intros H; [constructor|].
  apply andb_true_iff in H. destruct H as [H1 H2]. constructor; [|apply IH, H2].
  intros I. apply negb_true_iff in H1. assert (existsb (String.eqb a) l = true); [|congruence].
  apply existsb_exists. exists a. split; [exact I|apply String.eqb_refl].
Qed.
Lemma assoc_in : forall {A} (l : list (string * A)) k a, NoDup (map fst l) -> In (k, a) l -> assoc l k = Some a.
Proof.
  induction l as [|[k' a'] l IH]; cbn; intros k a N H; [destruct H|]. inversion N; subst.
  destruct (String.eqb k' k) eqn:E.
  - apply String.eqb_eq in E. subst k'. destruct H as [H|H]; [congruence|].
    exfalso. apply H2. apply (in_map fst) in H. exact H.
  - destruct H as [H|H]; [injection H as -> ->; rewrite String.eqb_refl in E; discriminate|]. apply IH; assumption.
Qed.

Definition flagged (g : group) : group := map (fun s => MkSlot (sl_name s) (sl_value s) true) g.

Lemma read_written : forall d path g, NoDup (map fst (xml_values d)) ->
  (forall e, In e (write_group path g) -> In e (xml_values d)) ->
  read_group d path (map sl_name g) = Some (flagged g).
Proof.
  intros d path g N. induction g as [|s g IH]; cbn; intros H; [reflexivity|].
  rewrite (assoc_in _ (path ++ sl_name s) (sl_value s) N).
  - rewrite IH; [reflexivity|]. intros e He. apply H. right. exact He.
  - apply H. left. reflexivity.
Qed.
Lemma read_written_names : forall d path g names, NoDup (map fst (xml_values d)) ->
  map sl_name g = names -> (forall e, In e (write_group path g) -> In e (xml_values d)) ->
  read_group d path names = Some (flagged g).
Proof. intros d path g names N <- H. apply read_written; assumption. Qed.

Lemma xml_nodup : forall c, shape c -> NoDup (map fst (chassis_xml c)).
Proof.
  assert (forall path g, map fst (write_group path g) = map (append path) (map sl_name g)) as G.
  { intros. unfold write_group. rewrite !map_map. reflexivity. }
  intros c H. apply nodupb_NoDup. explode_car c H. unfold chassis_xml, axle_xml, tire_xml.
  cbn [ch_own ch_base ch_front ch_rear ax_path ax_own ax_brakes br_path br_params ax_engines
       ax_left ax_right ti_path ti_own ti_model ti_base en_path en_params].
  rewrite ?map_app, !G.
  repeat match goal with E : map sl_name _ = _ |- _ => rewrite E; clear E end.
  vm_compute. reflexivity.
Qed.

Lemma reload : forall c ft rt, shape c ->
  exists c', create_f1_from_xml (add_types ft rt (save_xml c)) = Some c' /\
    stored c' = overwrite wind_north_path 0 (overwrite wind_east_path 0 (stored c)) /\
    chassis_ready c' = true.
Proof.
  intros c ft rt H. pose proof (xml_nodup c H) as N.
  assert (Hin : forall e, In e (chassis_xml c) -> In e (xml_values (add_types ft rt (save_xml c)))) by (intros; assumption).
  set (d := add_types ft rt (save_xml c)) in *.
  assert (N' : NoDup (map fst (xml_values d))) by exact N.
  assert (A1 : attribute (xml_attributes d) "vehicle/" "type" = Some "f1-3dof") by reflexivity.
  assert (A2 : attribute (xml_attributes d) "vehicle/front-tire/" "type" = Some ft) by reflexivity.
  assert (A3 : attribute (xml_attributes d) "vehicle/rear-tire/" "type" = Some rt) by reflexivity.
  clearbody d. clear N. explode_car c H.
  unfold chassis_xml, axle_xml, tire_xml in Hin.
  cbn [ch_own ch_base ch_front ch_rear ax_path ax_own ax_brakes br_path br_params ax_engines
       ax_left ax_right ti_path ti_own ti_model ti_base en_path en_params] in Hin.
  assert (L : forall path g names, map sl_name g = names ->
     (forall e, In e (write_group path g) -> In e (xml_values d)) -> read_group d path names = Some (flagged g)).
  { intros. apply read_written_names; assumption. }
  assert (Q1 := L "vehicle/chassis/" own _ H1). assert (Q2 := L "vehicle/chassis/" base _ H2).
  assert (Q3 := L "vehicle/front-axle/" fo _ F2). assert (Q4 := L "vehicle/front-axle/brakes/" fb _ F4).
  assert (Q5 := L "vehicle/rear-axle/" ro _ R2). assert (Q6 := L "vehicle/rear-axle/brakes/" rb _ R4).
  assert (Q7 := L "vehicle/rear-axle/engine/" eg _ R54). assert (Q8 := L "vehicle/rear-axle/boost/" bg _ R55).
  assert (Q9 := L "vehicle/front-tire/" flo _ F72). assert (Q10 := L "vehicle/front-tire/" flm _ F73).
  assert (Q11 := L "vehicle/front-tire/" flb _ F74).
  assert (Q12 := L "vehicle/rear-tire/" rlo _ R72). assert (Q13 := L "vehicle/rear-tire/" rlm _ R73).
  assert (Q14 := L "vehicle/rear-tire/" rlb _ R74). clear L.
  repeat match goal with
  | Q : (forall e, In e (write_group ?a ?g) -> In e (xml_values d)) -> _ |- _ =>
      specialize (Q (fun e He => Hin e ltac:(rewrite !in_app_iff; tauto)))
  end.
  unfold create_f1_from_xml. rewrite A1. cbn [String.eqb Ascii.eqb Bool.eqb].
  unfold read_f1, read_steering, read_powered, read_tire, read_brake, read_engine.
  change ("vehicle/front-axle/" ++ "brakes/") with "vehicle/front-axle/brakes/".
  change ("vehicle/rear-axle/" ++ "brakes/") with "vehicle/rear-axle/brakes/".
  change ("vehicle/rear-axle/" ++ "engine/") with "vehicle/rear-axle/engine/".
  change ("vehicle/rear-axle/" ++ "boost/") with "vehicle/rear-axle/boost/".
  rewrite A2, A3, Q1, Q2, Q3, Q4, Q5, Q6, Q7, Q8, Q9, Q10, Q11, Q12, Q13, Q14. cbn [option_map].
  eexists. split; [reflexivity|].
  assert (S : forall path g, stored_group path (flagged g) = stored_group path g).
  { intros. unfold stored_group, flagged. rewrite map_map. reflexivity. }
  assert (O : forall p v path g, has path p (map sl_name g) = false ->
     overwrite p v (stored_group path g) = stored_group path g).
  { intros p v path g E. rewrite <- stored_upd, upd_miss by exact E. reflexivity. }
  split.
  - unfold stored, stored_axle, stored_tire.
    cbn [ch_own ch_base ch_front ch_rear ax_path ax_own ax_brakes br_path br_params ax_engines
       ax_left ax_right ti_path ti_own ti_model ti_base en_path en_params ch_north ch_east].
    rewrite !S. clear Q1 Q2 Q3 Q4 Q5 Q6 Q7 Q8 Q9 Q10 Q11 Q12 Q13 Q14 Hin.
    assert (OA : forall p v l m, overwrite p v (l ++ m)%list = (overwrite p v l ++ overwrite p v m)%list).
    { intros. unfold overwrite. apply map_app. }
    rewrite !OA.
    repeat (rewrite O; [|match goal with E : map sl_name ?g = _ |- has _ _ (map sl_name ?g) = false =>
                           rewrite E; vm_compute; reflexivity end]).
    reflexivity.
  - assert (U : forall g, all_used (flagged g) = true).
    { intros g. unfold all_used, flagged. apply forallb_forall. intros s I. apply in_map_iff in I.
      destruct I as (s' & <- & _). reflexivity. }
    unfold chassis_ready, axle_ready, tire_ready. cbn. rewrite !U. reflexivity.
Qed.

