(** Lemmas on circuit files and tracks. *)
From Coq Require Import String QArith Qround ZArith Bool Arith Lia Lqa List.
From Verif Require Import M_Controls M_Kerb M_Mesh M_Track S_Track L_Controls L_Colloc3 L_Mesh.
Import ListNotations.
Local Open Scope Q_scope.

Lemma all_ok_map {A} (l : list A) : all_ok (map Ok l) = Ok l.
Proof. induction l as [|a l IH]; cbn; [reflexivity|now rewrite IH]. Qed.

Lemma rd_nth {A} (v : list A) i d : (i < length v)%nat -> rd v i = Ok (nth i v d).
Proof. intros H. unfold rd. rewrite (nth_error_nth' v d H). reflexivity. Qed.

Lemma map_rd_seq {A} (v : list A) : map (rd v) (seq 0 (length v)) = map Ok v.
Proof.
  apply nth_ext with (d := UB) (d' := UB); [now rewrite !map_length, seq_length|].
  intros i Hi. rewrite map_length, seq_length in Hi. destruct v as [|a0 v']; [cbn in Hi; lia|]. set (v := a0 :: v') in *.
  rewrite (nth_indep _ UB (rd v 0%nat)) by now rewrite map_length, seq_length. rewrite (map_nth (rd v)), seq_nth by assumption. cbn [Nat.add].
  rewrite (nth_indep _ UB (Ok a0)) by now rewrite map_length. rewrite (map_nth Ok). now apply rd_nth.
Qed.
Lemma read_all {A} (v : list A) : all_ok (map (rd v) (seq 0 (length v))) = Ok v.
Proof. rewrite map_rd_seq. apply all_ok_map. Qed.

Lemma map_rd_prefix {A} (v w : list A) : map (rd (v ++ w)) (seq 0 (length v)) = map Ok v.
Proof.
  rewrite <- map_rd_seq. apply map_ext_in. intros i Hi. apply in_seq in Hi. unfold rd. rewrite nth_error_app1 by lia. reflexivity.
Qed.

Lemma write_vector_ok {A} n (v : list A) : (1 <= n)%nat -> length v = n -> write_vector n v = Ok v.
Proof.
  intros H E. destruct n as [|m]; [lia|]. cbn [write_vector].
  destruct (@exists_last A v) as (l & b & ->); [intros ->; discriminate|]. rewrite app_length in E. cbn in E.
  assert (length l = m) by lia. subst m. rewrite map_rd_prefix, all_ok_map. cbn [bind].
  unfold rd. rewrite app_length. cbn [length]. replace (length l + 1 - 1)%nat with (length l) by lia.
  rewrite nth_error_app2, Nat.sub_diag by lia. reflexivity.
Qed.
Lemma write_empty {A} n : @write_vector A n [] = UB.
Proof. destruct n as [|[|n]]; reflexivity. Qed.

Lemma write_field_ok n name v : (1 <= n)%nat -> length v = n -> write_field n name v = Ok [(name, v)].
Proof. intros. unfold write_field. rewrite write_vector_ok by assumption. reflexivity. Qed.
Lemma write_points_ok n name v : (1 <= n)%nat -> length v = n ->
  write_points n name v = Ok [((name ++ "/x")%string, map px v); ((name ++ "/y")%string, map py v); ((name ++ "/z")%string, map pz v)].
Proof. intros. unfold write_points. rewrite !write_vector_ok by (rewrite ?map_length; assumption). reflexivity. Qed.

Lemma read_points_ok v n : length v = n -> read_points n (map px v) (map py v) (map pz v) = Ok v.
Proof.
  intros <-. unfold read_points. transitivity (all_ok (map (rd v) (seq 0 (length v)))); [apply (f_equal all_ok)|apply read_all]. apply map_ext_in. intros i Hi. apply in_seq in Hi.
  rewrite !(rd_nth _ i 0) by (rewrite map_length; lia). rewrite (rd_nth v i (0, 0, 0)) by lia. cbn [bind].
  rewrite (map_nth px v (0, 0, 0) i : nth i (map px v) 0 = _), (map_nth py v (0, 0, 0) i : nth i (map py v) 0 = _), (map_nth pz v (0, 0, 0) i : nth i (map pz v) 0 = _).
  destruct (nth i v (0, 0, 0)) as [[a b] c]. reflexivity.
Qed.
Lemma read_points_flat v n : length v = n -> read_points n (map px v) (map py v) (repeat 0 n) = Ok (map flatten v).
Proof.
  intros H. rewrite <- (read_points_ok (map flatten v) n) by now rewrite map_length. f_equal.
  - rewrite map_map. reflexivity.
  - rewrite map_map. reflexivity.
  - rewrite map_map. cbn. subst n. clear. induction v; cbn; congruence.
Qed.

Lemma heading_read c : ci_yaw c <> [] ->
  (if ci_closed c
   then bind (rd (ci_yaw c) (length (ci_yaw c) - 1)) (fun b => bind (rd (ci_yaw c) 0) (fun f => Ok (if Qlt_bool f b then 1%Z else (-1)%Z)))
   else Ok 0%Z) = Ok (heading_direction c).
Proof.
  intros H. unfold heading_direction. destruct (ci_closed c); [|reflexivity].
  rewrite (rd_nth _ _ 0) by (destruct (ci_yaw c); [congruence|cbn; lia]). rewrite <- last_nth_pair.
  destruct (ci_yaw c) as [|y ys]; [congruence|]. cbn [rd nth_error bind hd].
  destruct (Qlt_bool y (last (y :: ys) 0)) eqn:E.
  - apply Qlt_bool_iff in E. destruct (Qlt_le_dec y (last (y :: ys) 0)); [reflexivity|exfalso; lra].
  - apply Qlt_bool_false in E. destruct (Qlt_le_dec y (last (y :: ys) 0)); [exfalso; lra|reflexivity].
Qed.

Definition fields_of (c : circuit) : list (string * list Q) :=
  let '(e1, e2, e3, e4) := ci_errors c in
  let '(k1, k2, k3, k4) := ci_costs c in
  let pts name v := [((name ++ "/x")%string, map px v); ((name ++ "/y")%string, map py v); ((name ++ "/z")%string, map pz v)] in
  ([("header/track_length", [ci_length c]); ("header/L2_error_left", [e1]); ("header/L2_error_right", [e2]);
          ("header/max_error_left", [e3]); ("header/max_error_right", [e4]);
          ("optimization/cost_curvature", [round6 k1]); ("optimization/cost_track_limits_smoothness", [round6 k2]);
          ("optimization/cost_track_limits_errors", [round6 k3]); ("optimization/cost_centerline", [round6 k4]);
          ("optimization/cost_pitch", [round6 (fst (ci_elevation_costs c))]); ("optimization/cost_roll", [round6 (snd (ci_elevation_costs c))]);
          ("optimization/maximum_yaw_dot", [round6 (fst (ci_maxima c))]); ("optimization/maximum_dyaw_dot", [round6 (snd (ci_maxima c))])] ++
   [("data/arclength", ci_s c)] ++ pts "data/centerline" (ci_center c) ++ pts "data/left_boundary" (ci_left c) ++ pts "data/right_boundary" (ci_right c) ++
   pts "data/left_measured_boundary" (ci_left_measured c) ++ pts "data/right_measured_boundary" (ci_right_measured c) ++
   [("data/yaw", ci_yaw c); ("data/pitch", ci_pitch c); ("data/roll", ci_roll c); ("data/yaw_dot", ci_dyaw c); ("data/pitch_dot", ci_dpitch c);
    ("data/roll_dot", ci_droll c); ("data/nl", ci_nl c); ("data/nr", ci_nr c); ("data/dyaw_dot", ci_d2yaw c); ("data/dpitch_dot", ci_d2pitch c);
    ("data/droll_dot", ci_d2roll c); ("data/dnl", ci_dnl c); ("data/dnr", ci_dnr c)])%list%string.

Definition doc_of (c : circuit) : doc :=
  MkDoc (if ci_closed c then "closed" else "open") (if ci_elevation c then "3" else "2") (ci_n c) (fields_of c)
        (if ci_kerbs c then Some (map write_kerb (ci_left_kerb c), map write_kerb (ci_right_kerb c)) else None).

Lemma save_ok c : well_formed c -> save c = Ok (doc_of c).
Proof.
  intros (Hn & (L1 & L2 & L3 & L4) & (M1 & M2) & (V1 & V2 & V3 & V4 & V5 & V6 & V7 & V8 & V9 & V10 & V11 & V12 & V13) & _).
  unfold save, doc_of, fields_of. destruct (ci_errors c) as [[[e1 e2] e3] e4], (ci_costs c) as [[[k1 k2] k3] k4].
  rewrite !write_field_ok by assumption. rewrite !(write_points_ok (ci_n c)) by assumption.
  rewrite !write_points_ok by (reflexivity || match goal with |- (1 <= length ?l)%nat => destruct l; [congruence|cbn; lia] end).
  reflexivity.
Qed.

Lemma save_flat_ub c : ci_pitch c = [] -> save c = UB.
Proof.
  intros H. unfold save. destruct (ci_errors c) as [[[e1 e2] e3] e4], (ci_costs c) as [[[k1 k2] k3] k4].
  assert (W : forall A n (v : list A), write_vector n v <> Throw).
  { intros A n v. destruct n as [|n]; [discriminate|]. cbn [write_vector]. intros Hc.
    assert (G : forall l, all_ok (map (rd v) l) <> Throw).
    { induction l as [|i l IH]; cbn; [discriminate|]. unfold rd at 1. destruct (nth_error v i); cbn; [|discriminate].
      destruct (all_ok (map (rd v) l)); [discriminate|now intros|discriminate]. }
    specialize (G (seq 0 n)). destruct (all_ok _); cbn in Hc; [|congruence|discriminate]. unfold rd in Hc. destruct (nth_error v _); discriminate. }
  assert (WF : forall n s v, write_field n s v <> Throw).
  { intros n s v Hc. unfold write_field in Hc. specialize (W Q n v). destruct (write_vector n v); [discriminate|congruence|discriminate]. }
  assert (WP : forall n s v, write_points n s v <> Throw).
  { intros n s v Hc. unfold write_points in Hc. pose proof (W Q n (map px v)). pose proof (W Q n (map py v)). pose proof (W Q n (map pz v)).
    destruct (write_vector n (map px v)); [|congruence|discriminate]. destruct (write_vector n (map py v)); [|congruence|discriminate].
    destruct (write_vector n (map pz v)); [discriminate|congruence|discriminate]. }
  assert (CU : forall (l : list (res (list (string * list Q)))), (forall r, In r l -> r <> Throw) -> In UB l -> concat_res l = UB).
  { induction l as [|r l IH]; intros Hr Hin; [destruct Hin|]. cbn. destruct r as [a| |]; [|exfalso; now apply (Hr Throw (or_introl eq_refl))|reflexivity].
    cbn. destruct Hin as [Hin|Hin]; [discriminate|]. rewrite IH; [reflexivity|intros; apply Hr; now right|exact Hin]. }
  rewrite CU; [reflexivity| |].
  - intros r Hr. repeat (destruct Hr as [<-|Hr]; [first [discriminate|apply WF|apply WP]|]). destruct Hr.
  - do 8 right. left. rewrite H. unfold write_field. now rewrite write_empty.
Qed.

Lemma load_doc c : well_formed c -> load (doc_of c) = Ok (as_saved c).
Proof.
  intros (Hn & (L1 & L2 & L3 & L4) & (M1 & M2) & (V1 & V2 & V3 & V4 & V5 & V6 & V7 & V8 & V9 & V10 & V11 & V12 & V13) & HK).
  assert (HY : ci_yaw c <> []) by (intros E; rewrite E in V1; cbn in V1; lia).
  pose proof (heading_read c HY) as HD.
  unfold load, doc_of, as_saved, fields_of.
  destruct (ci_errors c) as [[[e1 e2] e3] e4], (ci_costs c) as [[[k1 k2] k3] k4].
  assert (EK : forall (f : list kerb * list kerb -> list kerb) (x : list kerb), (ci_kerbs c = false -> x = []) ->
     f (map write_kerb (ci_left_kerb c), map write_kerb (ci_right_kerb c)) = map write_kerb x ->
     match (if ci_kerbs c then Some (map write_kerb (ci_left_kerb c), map write_kerb (ci_right_kerb c)) else None) with Some ab => f ab | None => [] end = map write_kerb x).
  { intros f x Hx Hf. destruct (ci_kerbs c); [exact Hf|]. now rewrite Hx. }
  assert (EL : match (if ci_kerbs c then Some (map write_kerb (ci_left_kerb c), map write_kerb (ci_right_kerb c)) else None) with Some (a, _) => a | None => [] end = map write_kerb (ci_left_kerb c)).
  { apply (EK fst); [intros E; now apply HK|reflexivity]. }
  assert (ER : match (if ci_kerbs c then Some (map write_kerb (ci_left_kerb c), map write_kerb (ci_right_kerb c)) else None) with Some (_, b) => b | None => [] end = map write_kerb (ci_right_kerb c)).
  { apply (EK snd); [intros E; now apply HK|reflexivity]. }
  cbn [d_kerbs]. rewrite EL, ER. clear EK EL ER.
  assert (EB : match (if ci_kerbs c then Some (map write_kerb (ci_left_kerb c), map write_kerb (ci_right_kerb c)) else None) with Some _ => true | None => false end = ci_kerbs c) by (destruct (ci_kerbs c); reflexivity).
  rewrite EB. clear EB.
  assert (TY : (if String.eqb (if ci_closed c then "closed" else "open") "closed" then Ok true else if String.eqb (if ci_closed c then "closed" else "open") "open" then Ok false else Throw)%string = Ok (ci_closed c)) by (destruct (ci_closed c); reflexivity).
  cbn [d_type d_dimensions d_fields d_n]. rewrite TY. clear TY. cbn [bind].
  assert (DI : (if String.eqb (if ci_elevation c then "3" else "2") "2" then Ok false else if String.eqb (if ci_elevation c then "3" else "2") "3" then Ok true else Throw)%string = Ok (ci_elevation c)) by (destruct (ci_elevation c); reflexivity).
  rewrite DI. clear DI. cbn [bind].
  destruct (ci_elevation c).
  - cbn -[read_points round6 map heading_direction rd Qlt_bool Nat.sub length].
    rewrite !read_points_ok by (rewrite ?map_length; (assumption || reflexivity)).
    cbn -[read_points round6 map heading_direction rd Qlt_bool Nat.sub length].
    rewrite HD. reflexivity.
  - cbn -[read_points round6 map heading_direction rd Qlt_bool Nat.sub length repeat].
    rewrite !read_points_flat by (rewrite ?map_length; (assumption || reflexivity)).
    cbn -[read_points round6 map heading_direction rd Qlt_bool Nat.sub length repeat].
    rewrite HD. reflexivity.
Qed.
