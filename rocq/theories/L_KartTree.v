(** Proofs about the parameter tree of the kart. *)
From Coq Require Import String QArith Bool Arith Lia Lqa List.
From Verif Require Import M_Param S_Param L_Param M_Tree S_Tree L_Tree L_TreeCar L_TreeXml M_KartTree S_KartTree.
Import ListNotations.
Local Open Scope string_scope.

(** *** Reading one group *)
Lemma read_group_iff : forall d path names,
  (exists g, read_group d path names = Some g) <->
  (forall n, In n names -> exists x, assoc (xml_values d) (path ++ n) = Some x).
Proof.
  intros d path. induction names as [|n ns IH]; cbn.
  - split; [intros _ n []|intros _; eexists; reflexivity].
  - split.
    + intros [g H] m Hm. destruct (assoc (xml_values d) (path ++ n)) as [x|] eqn:E; [|discriminate].
      destruct (read_group d path ns) as [g'|] eqn:E2; [|discriminate].
      destruct Hm as [<-|Hm]; [eauto|]. apply (proj1 IH); eauto.
    + intros H. destruct (H n (or_introl eq_refl)) as [x E]. rewrite E.
      destruct (proj2 IH (fun m Hm => H m (or_intror Hm))) as [g' E2]. rewrite E2. eexists; reflexivity.
Qed.
Lemma read_stored : forall d path names g p x, read_group d path names = Some g ->
  In (p, x) (stored_group path g) <-> (In p (map (append path) names) /\ assoc (xml_values d) p = Some x).
Proof.
  intros d path. induction names as [|n ns IH]; cbn; intros g p x H.
  - injection H as <-. cbn. tauto.
  - destruct (assoc (xml_values d) (path ++ n)) as [y|] eqn:E; [|discriminate].
    destruct (read_group d path ns) as [g'|] eqn:E2; [|discriminate].
    injection H as <-. cbn. rewrite (IH g' p x eq_refl). split.
    + intros [K|[K1 K2]]; [injection K as <- <-; auto|auto].
    + intros [[<-|K1] K2]; [left; congruence|auto].
Qed.
Lemma read_vectors_iff : forall d path names,
  (exists g, read_vectors d path names = Some g) <->
  (forall n, In n names -> exists x, assoc d (path ++ n) = Some x).
Proof.
  intros d path. induction names as [|n ns IH]; cbn.
  - split; [intros _ n []|intros _; eexists; reflexivity].
  - split.
    + intros [g H] m Hm. destruct (assoc d (path ++ n)) as [x|] eqn:E; [|discriminate].
      destruct (read_vectors d path ns) as [g'|] eqn:E2; [|discriminate].
      destruct Hm as [<-|Hm]; [eauto|]. apply (proj1 IH); eauto.
    + intros H. destruct (H n (or_introl eq_refl)) as [x E]. rewrite E.
      destruct (proj2 IH (fun m Hm => H m (or_intror Hm))) as [g' E2]. rewrite E2. eexists; reflexivity.
Qed.
Lemma read_vectors_spec : forall d path names g, read_vectors d path names = Some g ->
  map vs_name g = names /\ forallb vs_used g = true /\
  forall p x, In (p, x) (map (fun s => (path ++ vs_name s, vs_value s)) g) <->
              (In p (map (append path) names) /\ assoc d p = Some x).
Proof.
  intros d path. induction names as [|n ns IH]; cbn; intros g H.
  - injection H as <-. cbn. repeat split; tauto.
  - destruct (assoc d (path ++ n)) as [y|] eqn:E; [|discriminate].
    destruct (read_vectors d path ns) as [g'|] eqn:E2; [|discriminate].
    injection H as <-. cbn. destruct (IH g' eq_refl) as (N & U & K). split; [congruence|]. split; [exact U|].
    intros p x. rewrite K. split.
    + intros [W|[K1 K2]]; [injection W as <- <-; auto|auto].
    + intros [[<-|K1] K2]; [left; congruence|auto].
Qed.
Lemma in_append : forall path n names, In (path ++ n) (map (append path) names) <-> In n names.
Proof.
  intros. rewrite in_map_iff. split; [|eauto].
  intros (m & E & H). apply append_inj in E. congruence.
Qed.

(** *** Shape of a kart *)
Definition kart_tire_shape (t : tire) (path : string) : Prop :=
  ti_path t = path /\ map sl_name (ti_own t) = names_tire_own /\
  map sl_name (ti_model t) = names_kart_model /\ map sl_name (ti_base t) = names_tire_base.
Definition kart_shape (k : kart) : Prop :=
  map sl_name (kt_base k) = names_chassis_base /\ map vs_name (kt_own k) = names_kart_chassis /\
  (kx_path (kt_front k) = "vehicle/front-axle/" /\ map sl_name (kx_own (kt_front k)) = names_kart_front /\
   kx_engine (kt_front k) = None /\ kx_brakes (kt_front k) = None /\
   kx_right (kt_front k) = kx_left (kt_front k) /\ kart_tire_shape (kx_left (kt_front k)) "vehicle/front-tire/") /\
  (kx_path (kt_rear k) = "vehicle/rear-axle/" /\ map sl_name (kx_own (kt_rear k)) = names_kart_rear /\
   (forall e, kx_engine (kt_rear k) = Some e ->
      en_path e = "vehicle/rear-axle/engine/" /\ map sl_name (en_params e) = names_engine) /\
   (forall b, kx_brakes (kt_rear k) = Some b ->
      br_path b = "vehicle/rear-axle/brakes/" /\ map sl_name (br_params b) = names_brake) /\
   kx_right (kt_rear k) = kx_left (kt_rear k) /\ kart_tire_shape (kx_left (kt_rear k)) "vehicle/rear-tire/").

Lemma read_kart_tire_shape : forall d path t, read_kart_tire d path = Some t ->
  kart_tire_shape t path /\ tire_ready t = true /\
  (forall p x, In (p, x) (stored_tire t) <-> (In p (kart_tire_paths path) /\ assoc (xml_values d) p = Some x)).
Proof.
  intros d path t H. unfold read_kart_tire in H. repeat dm H. injection H as <-.
  split; [|split].
  - repeat match goal with E : read_group _ _ _ = Some _ |- _ => apply read_names in E end.
    unfold kart_tire_shape; cbn. repeat split; assumption.
  - repeat match goal with E : read_group _ _ _ = Some _ |- _ => apply read_used in E end.
    unfold tire_ready, all_used; cbn.
    repeat match goal with E : forallb _ _ = true |- _ => rewrite E end. reflexivity.
  - intros p x. unfold stored_tire; cbn [ti_path ti_own ti_model ti_base]. rewrite !in_app_iff.
    repeat match goal with E : read_group _ _ _ = Some _ |- _ => rewrite (read_stored _ _ _ _ p x E); clear E end.
    unfold kart_tire_paths, names_tire_own, names_kart_model, names_tire_base. cbn [map]. cbn [In]. tauto.
Qed.
Lemma prefix_append : forall a b, String.prefix a (a ++ b) = true.
Proof. induction a; cbn; intros b; [destruct b; reflexivity|]. destruct (Ascii.ascii_dec a a); [apply IHa|congruence]. Qed.
Lemma assoc_some_in : forall {A} (l : list (string * A)) k a, assoc l k = Some a -> In (k, a) l.
Proof.
  induction l as [|[k' a'] l IH]; cbn; intros k a H; [discriminate|].
  destruct (String.eqb k' k) eqn:E; [|right; auto]. apply String.eqb_eq in E. left. congruence.
Qed.
Lemma present_has : forall d path n x, assoc (xml_values d) (path ++ n) = Some x -> has_element d path = true.
Proof.
  intros d path n x H. apply assoc_some_in in H. unfold has_element. apply orb_true_iff. left.
  apply existsb_exists. eexists. split; [exact H|]. cbn. apply prefix_append.
Qed.

Lemma read_if_present_engine : forall d path o, read_if_present d path read_engine = Some o ->
  (forall e, o = Some e -> en_path e = path /\ map sl_name (en_params e) = names_engine) /\
  (forall p x, In (p, x) (match o with Some e => stored_group (en_path e) (en_params e) | None => [] end) <->
     (p = path ++ "maximum-power" /\ assoc (xml_values d) p = Some x)).
Proof.
  intros d path o H. unfold read_if_present in H. destruct (has_element d path) eqn:E.
  - unfold read_engine in H. destruct (read_group d path names_engine) as [g|] eqn:G; [|discriminate].
    cbn in H. injection H as <-. split.
    + intros e K. injection K as <-. cbn. split; [reflexivity|]. eapply read_names; exact G.
    + intros p x. cbn [en_path en_params]. rewrite (read_stored _ _ _ _ p x G). cbn. intuition congruence.
  - injection H as <-. split; [discriminate|]. intros p x. cbn. split; [tauto|].
    intros [-> K]. apply present_has in K. congruence.
Qed.
Lemma read_if_present_brake : forall d path o, read_if_present d path read_brake = Some o ->
  (forall b, o = Some b -> br_path b = path /\ map sl_name (br_params b) = names_brake) /\
  (forall p x, In (p, x) (match o with Some b => stored_group (br_path b) (br_params b) | None => [] end) <->
     (p = path ++ "max_torque" /\ assoc (xml_values d) p = Some x)).
Proof.
  intros d path o H. unfold read_if_present in H. destruct (has_element d path) eqn:E.
  - unfold read_brake in H. destruct (read_group d path names_brake) as [g|] eqn:G; [|discriminate].
    cbn in H. injection H as <-. split.
    + intros e K. injection K as <-. cbn. split; [reflexivity|]. eapply read_names; exact G.
    + intros p x. cbn [br_path br_params]. rewrite (read_stored _ _ _ _ p x G). cbn. intuition congruence.
  - injection H as <-. split; [discriminate|]. intros p x. cbn. split; [tauto|].
    intros [-> K]. apply present_has in K. congruence.
Qed.

Lemma read_kart_spec : forall d k, create_kart_from_xml d = Some k ->
  kart_shape k /\ kart_ready k = true /\
  (forall p x, In (p, x) (stored_kart k) <->
     (In p wind_paths /\ x = 0%Q) \/ (In p kart_file_paths /\ assoc (xml_values (kf_xml d)) p = Some x)) /\
  (forall p x, In (p, x) (stored_vectors k) <-> (In p kart_vector_paths /\ assoc (kf_vectors d) p = Some x)).
Proof.
  intros [d vs] k H. unfold create_kart_from_xml in H. cbn [kf_xml kf_vectors] in *.
  destruct (attribute _ _ _) as [ty|]; [|discriminate]. destruct (String.eqb ty _); [|discriminate].
  unfold read_kart in H. cbn [kf_xml kf_vectors] in H.
  destruct (read_kart_front d _ _) as [f|] eqn:Ef; [|discriminate H].
  destruct (read_kart_rear d _ _) as [r|] eqn:Er; [|discriminate H].
  destruct (read_group d _ names_chassis_base) as [b|] eqn:Eb; [|discriminate H].
  destruct (read_vectors vs _ _) as [o|] eqn:Eo; [|discriminate H].
  injection H as <-.
  unfold read_kart_front in Ef.
  destruct (read_kart_tire d "vehicle/front-tire/") as [ft|] eqn:Eft; [|discriminate Ef].
  destruct (read_group d _ names_kart_front) as [fo|] eqn:Efo; [|discriminate Ef]. injection Ef as <-.
  unfold read_kart_rear in Er.
  destruct (read_kart_tire d "vehicle/rear-tire/") as [rt|] eqn:Ert; [|discriminate Er].
  destruct (read_group d _ names_kart_rear) as [ro|] eqn:Ero; [|discriminate Er].
  destruct (read_if_present d _ read_engine) as [en|] eqn:Een; [|discriminate Er].
  destruct (read_if_present d _ read_brake) as [br|] eqn:Ebr; [|discriminate Er]. injection Er as <-.
  destruct (read_kart_tire_shape _ _ _ Eft) as (F1 & F2 & F3).
  destruct (read_kart_tire_shape _ _ _ Ert) as (R1 & R2 & R3).
  destruct (read_if_present_engine _ _ _ Een) as (N1 & N2).
  destruct (read_if_present_brake _ _ _ Ebr) as (B1 & B2).
  destruct (read_vectors_spec _ _ _ _ Eo) as (V1 & V2 & V3).
  split; [|split; [|split]].
  - unfold kart_shape; cbn [kt_base kt_own kt_front kt_rear kx_path kx_own kx_engine kx_brakes kx_left kx_right].
    rewrite (read_names _ _ _ _ Eb), (read_names _ _ _ _ Efo), (read_names _ _ _ _ Ero), V1.
    split; [reflexivity|]. split; [reflexivity|]. split; repeat (split; [reflexivity || assumption|]); assumption.
  - unfold kart_ready, kart_axle_ready, all_used; cbn.
    rewrite F2, R2, (read_used _ _ _ _ Eb), (read_used _ _ _ _ Efo), (read_used _ _ _ _ Ero), V2. reflexivity.
  - intros p x. unfold stored_kart, stored_kart_axle.
    cbn [kt_base kt_north kt_east kt_front kt_rear kx_path kx_own kx_engine kx_brakes kx_left kx_right].
    rewrite !in_app_iff, N2, B2, F3, R3, (read_stored _ _ _ _ p x Eb), (read_stored _ _ _ _ p x Efo),
      (read_stored _ _ _ _ p x Ero).
    unfold kart_file_paths, kart_required_paths. rewrite !in_app_iff.
    change (map (append "vehicle/chassis/") names_chassis_base) with kart_chassis_paths.
    change kart_axle_paths with (map (append "vehicle/front-axle/") names_kart_front
                                 ++ map (append "vehicle/rear-axle/") names_kart_rear)%list.
    rewrite in_app_iff.
    change ("vehicle/rear-axle/" ++ "engine/") with "vehicle/rear-axle/engine/".
    change ("vehicle/rear-axle/" ++ "brakes/") with "vehicle/rear-axle/brakes/".
    change ("vehicle/rear-axle/engine/" ++ "maximum-power") with kart_engine_path.
    change ("vehicle/rear-axle/brakes/" ++ "max_torque") with kart_brakes_path.
    unfold wind_paths. cbn [In]. rewrite !pair_equal_spec.
    assert (forall q : string, (q = p) <-> (p = q)) as Sy by (split; congruence).
    assert (forall q : Q, (q = x) <-> (x = q)) as Sx by (split; congruence).
    rewrite !Sy, !Sx. generalize (assoc (xml_values d) p = Some x). intros P. tauto.
  - exact V3.
Qed.

(** *** set_parameter *)
Definition upd_kart_axle (p : string) (v : Q) (a : kart_axle) : kart_axle :=
  MkKartAxle (kx_path a) (kx_own a) (kx_engine a) (kx_brakes a) (upd_tire p v (kx_left a)) (upd_tire p v (kx_right a)).
Definition upd_kart (p : string) (v : Q) (k : kart) : kart :=
  MkKart (kt_own k) (upd "vehicle/chassis/" p v (kt_base k))
         (if String.eqb wind_north_path p then v else kt_north k)
         (if String.eqb wind_east_path p then v else kt_east k)
         (upd_kart_axle p v (kt_front k)) (upd_kart_axle p v (kt_rear k)).

Lemma has_in : forall path p names, has path p names = true <-> In p (map (append path) names).
Proof.
  intros. unfold has. rewrite existsb_exists, in_map_iff. split; intros (n & A & B); exists n.
  - apply String.eqb_eq in B. auto.
  - split; [auto|]. apply String.eqb_eq. auto.
Qed.
Lemma has_prefix : forall path p names, has path p names = true -> starts_with path p = true.
Proof. intros path p names H. apply has_in in H. apply in_map_iff in H. destruct H as (n & <- & _). apply prefix_append. Qed.
Lemma prefixes_comparable : forall a b p, String.prefix a p = true -> String.prefix b p = true ->
  String.prefix a b || String.prefix b a = true.
Proof.
  induction a as [|c a IH]; intros [|c' b] [|c'' p] A B; cbn in *; try reflexivity; try discriminate.
  destruct (Ascii.ascii_dec c c''); [|discriminate]. destruct (Ascii.ascii_dec c' c''); [|discriminate]. subst.
  destruct (Ascii.ascii_dec c'' c''); [|congruence]. eapply IH; eassumption.
Qed.
Lemma other_prefix : forall a b p, String.prefix a b || String.prefix b a = false ->
  starts_with a p = true -> starts_with b p = false.
Proof.
  intros a b p H A. unfold starts_with in *. destruct (String.prefix b p) eqn:B; [|reflexivity].
  rewrite (prefixes_comparable _ _ _ A B) in H. discriminate.
Qed.

Lemma kart_tire_has : forall p t path, kart_tire_shape t path ->
  unique_names t /\ (tire_has p t = true <-> In p (kart_tire_paths path)) /\ tire_once p t.
Proof.
  intros p [pa ol o m b] path (P & H1 & H2 & H3). cbn in *. subst pa.
  unfold unique_names, tire_has, hasg, tire_once. cbn [ti_path ti_own ti_model ti_base]. unfold hasg.
  rewrite H1, H2, H3. split; [|split].
  - repeat split; vm_compute; reflexivity.
  - rewrite !orb_true_iff, !has_in. unfold kart_tire_paths, names_tire_own, names_kart_model, names_tire_base.
    cbn [map In]. tauto.
  - assert (D : forall A B, forallb (fun a => negb (existsb (String.eqb a) B)) A = true ->
        has path p A = true -> has path p B = false).
    { intros A B F HA. destruct (has path p B) eqn:HB; [|reflexivity]. exfalso.
      apply has_in in HA, HB. apply in_map_iff in HA, HB. destruct HA as (n & <- & IA), HB as (n' & E & IB).
      apply append_inj in E. subst n'. rewrite forallb_forall in F. specialize (F _ IA).
      apply negb_true_iff in F. apply in_b in IB. congruence. }
    split; [intros H; split|intros H]; eapply D; try exact H; vm_compute; reflexivity.
Qed.

Lemma kart_axle_set_spec : forall a p v path, kx_right a = kx_left a -> kart_tire_shape (kx_left a) path ->
  kart_axle_set a p v =
  if starts_with path p then
    if tire_has p (kx_left a) then Some (upd_kart_axle p v a, true) else None
  else Some (a, false).
Proof.
  intros [xp xo xe xb l r] p v path E S. cbn in E, S. subst r.
  destruct (kart_tire_has p l path S) as (U & _ & O). unfold kart_axle_set, upd_kart_axle. cbn.
  rewrite String.eqb_refl. cbn [negb]. destruct S as (P & _). rewrite P.
  destruct (starts_with path p) eqn:W; [|reflexivity]. rewrite tire_set_spec by (rewrite ?P; assumption).
  destruct (tire_has p l); reflexivity.
Qed.
Lemma upd_kart_axle_miss : forall p v a, kx_right a = kx_left a -> tire_has p (kx_left a) = false ->
  upd_kart_axle p v a = a.
Proof. intros p v [xp xo xe xb l r] E H. cbn in *. subst r. unfold upd_kart_axle; cbn. rewrite upd_tire_miss by exact H. reflexivity. Qed.

Lemma tire_paths_prefix : forall p path, In p (kart_tire_paths path) -> starts_with path p = true.
Proof. intros p path H. apply in_map_iff in H. destruct H as (n & <- & _). apply prefix_append. Qed.

Lemma kart_set_spec : forall k p v, kart_shape k ->
  (In p kart_settable_paths -> kart_set k p v = Some (upd_kart p v k)) /\
  (~ In p kart_settable_paths -> kart_set k p v = None).
Proof.
  intros k p v (B & V & (F1 & F2 & F3 & F4 & F5 & F6) & (R1 & R2 & R3 & R4 & R5 & R6)).
  assert (M : In p kart_settable_paths <->
     has "vehicle/chassis/" p names_chassis_base = true \/ p = wind_north_path \/ p = wind_east_path \/
     tire_has p (kx_left (kt_front k)) = true \/ tire_has p (kx_left (kt_rear k)) = true).
  { destruct (kart_tire_has p _ _ F6) as (_ & -> & _), (kart_tire_has p _ _ R6) as (_ & -> & _).
    rewrite has_in. unfold kart_settable_paths. rewrite !in_app_iff.
    change (map (append "vehicle/chassis/") names_chassis_base) with kart_chassis_paths.
    unfold wind_paths, wind_north_path, wind_east_path. cbn [In].
    assert (forall q : string, (q = p) <-> (p = q)) as Sy by (split; congruence). rewrite !Sy. tauto. }
  assert (TF : tire_has p (kx_left (kt_front k)) = true -> starts_with "vehicle/front-tire/" p = true).
  { destruct (kart_tire_has p _ _ F6) as (_ & -> & _). apply tire_paths_prefix. }
  assert (TR : tire_has p (kx_left (kt_rear k)) = true -> starts_with "vehicle/rear-tire/" p = true).
  { destruct (kart_tire_has p _ _ R6) as (_ & -> & _). apply tire_paths_prefix. }
  pose proof (lion_dec "vehicle/chassis/" p v _ _ B eq_refl) as L.
  assert (WN : starts_with "vehicle/chassis/" wind_north_path = true) by reflexivity.
  assert (WE : starts_with "vehicle/chassis/" wind_east_path = true) by reflexivity.
  assert (C : kart_set k p v = if existsb (String.eqb p) kart_settable_paths then Some (upd_kart p v k) else None).
  { destruct (existsb (String.eqb p) kart_settable_paths) eqn:I.
    - apply in_b, M in I. unfold kart_set.
      destruct (starts_with "vehicle/chassis/" p) eqn:S.
      + assert (tire_has p (kx_left (kt_front k)) = false) as NF.
        { destruct (tire_has p (kx_left (kt_front k))); [|reflexivity].
          rewrite (other_prefix "vehicle/chassis/" "vehicle/front-tire/" p eq_refl S) in TF. symmetry; auto. }
        assert (tire_has p (kx_left (kt_rear k)) = false) as NR.
        { destruct (tire_has p (kx_left (kt_rear k))); [|reflexivity].
          rewrite (other_prefix "vehicle/chassis/" "vehicle/rear-tire/" p eq_refl S) in TR. symmetry; auto. }
        unfold upd_kart. rewrite !upd_kart_axle_miss by assumption.
        destruct (has "vehicle/chassis/" p names_chassis_base) eqn:H.
        * rewrite L.
          assert (String.eqb wind_north_path p = false) as ->.
          { apply String.eqb_neq. intros <-. vm_compute in H. discriminate. }
          assert (String.eqb wind_east_path p = false) as ->.
          { apply String.eqb_neq. intros <-. vm_compute in H. discriminate. }
          reflexivity.
        * destruct L as [L1 L2]. rewrite L1, L2.
          destruct I as [I|[->|[->|[I|I]]]]; try discriminate; try congruence; reflexivity.
      + destruct I as [I|[->|[->|I]]]; try discriminate.
        { apply has_prefix in I. congruence. }
        assert (has "vehicle/chassis/" p names_chassis_base = false) as NB.
        { destruct (has _ p _) eqn:H; [apply has_prefix in H; congruence|reflexivity]. }
        rewrite NB in L. destruct L as [_ L2].
        assert (String.eqb wind_north_path p = false) as N1 by (apply String.eqb_neq; intros <-; discriminate).
        assert (String.eqb wind_east_path p = false) as N2 by (apply String.eqb_neq; intros <-; discriminate).
        rewrite (kart_axle_set_spec _ p v _ F5 F6).
        destruct (starts_with "vehicle/front-tire/" p) eqn:SF.
        * assert (tire_has p (kx_left (kt_rear k)) = false) as NR.
          { destruct (tire_has p (kx_left (kt_rear k))); [|reflexivity].
            rewrite (other_prefix "vehicle/front-tire/" "vehicle/rear-tire/" p eq_refl SF) in TR. symmetry; auto. }
          destruct I as [I|I]; [|congruence]. rewrite I.
          unfold upd_kart. rewrite L2, N1, N2, (upd_kart_axle_miss p v (kt_rear k)) by assumption. reflexivity.
        * assert (tire_has p (kx_left (kt_front k)) = false) as NF.
          { destruct (tire_has p (kx_left (kt_front k))); [|reflexivity]. symmetry; auto. }
          destruct I as [I|I]; [congruence|].
          rewrite (kart_axle_set_spec _ p v _ R5 R6), (TR I), I.
          unfold upd_kart. rewrite L2, N1, N2, (upd_kart_axle_miss p v (kt_front k)) by assumption. reflexivity.
    - assert (~ In p kart_settable_paths) as NI by (intros K; apply in_b in K; congruence).
      rewrite M in NI. unfold kart_set. destruct (starts_with "vehicle/chassis/" p) eqn:S.
      + destruct (has "vehicle/chassis/" p names_chassis_base) eqn:H; [exfalso; auto|].
        destruct L as [L1 _]. rewrite L1.
        assert (String.eqb p wind_north_path = false) as -> by (apply String.eqb_neq; intros K; apply NI; tauto).
        assert (String.eqb p wind_east_path = false) as -> by (apply String.eqb_neq; intros K; apply NI; tauto). reflexivity.
      + rewrite (kart_axle_set_spec _ p v _ F5 F6), (kart_axle_set_spec _ p v _ R5 R6).
        destruct (tire_has p (kx_left (kt_front k))); [exfalso; apply NI; tauto|].
        destruct (tire_has p (kx_left (kt_rear k))); [exfalso; apply NI; tauto|].
        destruct (starts_with _ p); [reflexivity|]. destruct (starts_with _ p); reflexivity. }
  split; intros I.
  - apply in_b in I. rewrite C, I. reflexivity.
  - destruct (existsb (String.eqb p) kart_settable_paths) eqn:K; [apply in_b in K; contradiction|exact C].
Qed.

Lemma kart_shape_upd : forall p v k, kart_shape k -> kart_shape (upd_kart p v k).
Proof.
  intros p v k (B & V & (F1 & F2 & F3 & F4 & F5 & (F6 & F7 & F8 & F9)) & (R1 & R2 & R3 & R4 & R5 & (R6 & R7 & R8 & R9))).
  unfold kart_shape, kart_tire_shape. cbn. rewrite !upd_names, F5, R5.
  repeat (split; try assumption; try reflexivity).
Qed.
Lemma kart_shape_obtainable : forall k, obtainable_kart k -> kart_shape k.
Proof.
  intros k H. induction H as [d k H|k p v k' _ IH H].
  - apply (read_kart_spec d k H).
  - destruct (kart_set_spec k p v IH) as [S N].
    destruct (in_dec string_dec p kart_settable_paths) as [I|I].
    + rewrite (S I) in H. injection H as <-. apply kart_shape_upd, IH.
    + rewrite (N I) in H. discriminate.
Qed.

Lemma overwrite_app : forall p v l m, overwrite p v (l ++ m)%list = (overwrite p v l ++ overwrite p v m)%list.
Proof. intros. apply map_app. Qed.
Lemma overwrite_absent : forall p v l, ~ In p (map fst l) -> overwrite p v l = l.
Proof.
  intros p v l. unfold overwrite. induction l as [|[k x] l IH]; cbn; intros H; [reflexivity|].
  rewrite IH by tauto. destruct (String.eqb k p) eqn:E; [|reflexivity]. apply String.eqb_eq in E. tauto.
Qed.
Lemma stored_group_fst : forall path g, map fst (stored_group path g) = map (append path) (map sl_name g).
Proof. intros. unfold stored_group. rewrite !map_map. reflexivity. Qed.
Lemma stored_tire_upd : forall p v t, stored_tire (upd_tire p v t) = overwrite p v (stored_tire t).
Proof.
  intros p v [pa ol o m b]. unfold stored_tire, upd_tire. cbn [ti_path ti_own ti_model ti_base].
  rewrite !overwrite_app, !stored_upd. reflexivity.
Qed.
Lemma disjoint_lists : forall (A B : list string) p,
  forallb (fun a => negb (existsb (String.eqb a) B)) A = true -> In p A -> ~ In p B.
Proof.
  intros A B p F HA HB. rewrite forallb_forall in F. specialize (F _ HA). apply in_b in HB. rewrite HB in F. discriminate.
Qed.
Lemma stored_kart_upd : forall p v k, kart_shape k -> In p kart_settable_paths ->
  stored_kart (upd_kart p v k) = overwrite p v (stored_kart k).
Proof.
  intros p v k (B & V & (F1 & F2 & F3 & F4 & F5 & F6) & (R1 & R2 & R3 & R4 & R5 & R6)) I.
  unfold stored_kart, stored_kart_axle, upd_kart, upd_kart_axle.
  cbn [kt_base kt_north kt_east kt_front kt_rear kx_path kx_own kx_engine kx_brakes kx_left kx_right].
  rewrite !stored_tire_upd, stored_upd, !overwrite_app.
  assert (G : forall path g names, map sl_name g = names ->
     forallb (fun a => negb (existsb (String.eqb a) (map (append path) names))) kart_settable_paths = true ->
     overwrite p v (stored_group path g) = stored_group path g).
  { intros path g names E F. apply overwrite_absent. rewrite stored_group_fst, E. eapply disjoint_lists; eassumption. }
  rewrite F1, R1, (G _ _ _ F2) by (vm_compute; reflexivity).
  rewrite (G _ _ _ R2) by (vm_compute; reflexivity).
  rewrite F3, F4. cbn [overwrite map].
  f_equal. f_equal; [|f_equal; f_equal].
  - unfold wind_north_path, wind_east_path. cbn [fst]. clear. repeat match goal with |- context [if ?b then _ else _] => destruct b end; reflexivity.
  - f_equal; [|f_equal].
    + destruct (kx_engine (kt_rear k)) as [e|]; [|reflexivity]. destruct (R3 e eq_refl) as [-> E].
      symmetry. apply (G _ _ _ E). vm_compute; reflexivity.
    + destruct (kx_brakes (kt_rear k)) as [b|]; [|reflexivity]. destruct (R4 b eq_refl) as [-> E].
      symmetry. apply (G _ _ _ E). vm_compute; reflexivity.
Qed.
Definition kart_saved_paths : list string :=
  (kart_chassis_paths ++ kart_tire_paths "vehicle/front-tire/" ++ kart_tire_paths "vehicle/rear-tire/")%list.
Lemma in_stored_group : forall path g p x, In (p, x) (stored_group path g) -> In p (map (append path) (map sl_name g)).
Proof. intros path g p x H. rewrite <- stored_group_fst. apply (in_map fst) in H. exact H. Qed.
Lemma kart_xml_spec : forall k p x, kart_shape k ->
  In (p, x) (kart_xml k) <-> (In p kart_saved_paths /\ In (p, x) (stored_kart k)).
Proof.
  intros k p x (B & V & (F1 & F2 & F3 & F4 & F5 & F6) & (R1 & R2 & R3 & R4 & R5 & R6)).
  assert (T : forall t path, kart_tire_shape t path -> In (p, x) (stored_tire t) -> In p (kart_tire_paths path)).
  { intros [pa ol o m b] path (P & H1 & H2 & H3). cbn in *. subst pa. unfold stored_tire.
    cbn [ti_path ti_own ti_model ti_base]. rewrite !in_app_iff.
    intros [H|[H|H]]; apply in_stored_group in H; rewrite ?H1, ?H2, ?H3 in H;
    revert H; unfold kart_tire_paths, names_tire_own, names_kart_model, names_tire_base; cbn [map In]; clear; tauto. }
  assert (X : forall t, In (p, x) (tire_xml t) <-> In (p, x) (stored_tire t)).
  { intros t. unfold tire_xml, stored_tire, write_group, stored_group. rewrite !in_app_iff. tauto. }
  assert (D : forall path g names, map sl_name g = names ->
     forallb (fun a => negb (existsb (String.eqb a) (map (append path) names))) kart_saved_paths = true ->
     In p kart_saved_paths -> ~ In (p, x) (stored_group path g)).
  { intros path g names E F I H. apply in_stored_group in H. rewrite E in H. exact (disjoint_lists _ _ _ F I H). }
  assert (DW : In p kart_saved_paths -> ~ In p wind_paths) by (apply disjoint_lists; vm_compute; reflexivity).
  unfold kart_xml, stored_kart, stored_kart_axle. rewrite !in_app_iff, !X, F1, F3, F4, F5, R1, R5.
  change (write_group "vehicle/chassis/" (kt_base k)) with (stored_group "vehicle/chassis/" (kt_base k)).
  assert (I1 : In (p, x) (stored_group "vehicle/chassis/" (kt_base k)) -> In p kart_saved_paths).
  { intros H. apply in_stored_group in H. rewrite B in H. unfold kart_saved_paths. apply in_or_app. left. exact H. }
  assert (I2 : In (p, x) (stored_tire (kx_left (kt_front k))) -> In p kart_saved_paths).
  { intros H. apply (T _ _ F6) in H. unfold kart_saved_paths. rewrite !in_app_iff. tauto. }
  assert (I3 : In (p, x) (stored_tire (kx_left (kt_rear k))) -> In p kart_saved_paths).
  { intros H. apply (T _ _ R6) in H. unfold kart_saved_paths. rewrite !in_app_iff. tauto. }
  split; [clear - I1 I2 I3; tauto|].
  intros [I H]. pose proof (D "vehicle/front-axle/" _ _ F2 eq_refl I) as D1. pose proof (D "vehicle/rear-axle/" _ _ R2 eq_refl I) as D2.
  assert (D3 : ~ In (p, x) match kx_engine (kt_rear k) with Some e => stored_group (en_path e) (en_params e) | None => [] end).
  { destruct (kx_engine (kt_rear k)) as [e|]; [|intros []]. destruct (R3 e eq_refl) as [-> N]. eapply D; [exact N|vm_compute; reflexivity|exact I]. }
  assert (D4 : ~ In (p, x) match kx_brakes (kt_rear k) with Some e => stored_group (br_path e) (br_params e) | None => [] end).
  { destruct (kx_brakes (kt_rear k)) as [e|]; [|intros []]. destruct (R4 e eq_refl) as [-> N]. eapply D; [exact N|vm_compute; reflexivity|exact I]. }
  assert (D5 : ~ In (p, x) [("vehicle/chassis/aerodynamics/wind_velocity/northward", kt_north k);
                            ("vehicle/chassis/aerodynamics/wind_velocity/eastward", kt_east k)]).
  { intros [K|[K|[]]]; apply (DW I); injection K as <- _; cbn; auto. }
  clear - D1 D2 D3 D4 D5 H. cbn [In] in *. tauto.
Qed.
Lemma kart_saved_incomplete : forall k, kart_shape k -> ~ In "vehicle/front-axle/track" (map fst (kart_xml k)).
Proof.
  intros k S H. apply in_map_iff in H. destruct H as ([p x] & E & H). cbn in E. subst p.
  apply (kart_xml_spec _ _ _ S) in H. destruct H as [H _]. apply in_b in H. vm_compute in H. discriminate.
Qed.

Lemma all_used_upd : forall path p v g, all_used g = true -> all_used (upd path p v g) = true.
Proof.
  intros path p v g. unfold all_used, upd. rewrite !forallb_forall. intros H s I.
  apply in_map_iff in I. destruct I as (t & <- & I). destruct (String.eqb _ _); [reflexivity|auto].
Qed.
Lemma tire_ready_upd : forall p v t, tire_ready t = true -> tire_ready (upd_tire p v t) = true.
Proof.
  intros p v t. unfold tire_ready. rewrite !andb_true_iff. intros [[A B] C]. cbn.
  repeat split; apply all_used_upd; assumption.
Qed.
Lemma kart_ready_upd : forall p v k, kart_ready k = true -> kart_ready (upd_kart p v k) = true.
Proof.
  intros p v k. unfold kart_ready, kart_axle_ready. rewrite !andb_true_iff. cbn.
  intros [[[[[A B] C] [[D E] F]] G] H]. repeat split; auto using all_used_upd, tire_ready_upd.
Qed.
Lemma kart_ready_obtainable : forall k, obtainable_kart k -> kart_ready k = true.
Proof.
  intros k H. induction H as [d k H|k p v k' O IH H].
  - apply (read_kart_spec d k H).
  - apply kart_shape_obtainable in O. destruct (kart_set_spec k p v O) as [S N].
    destruct (in_dec string_dec p kart_settable_paths) as [I|I].
    + rewrite (S I) in H. injection H as <-. apply kart_ready_upd, IH.
    + rewrite (N I) in H. discriminate.
Qed.

(** *** Declared parameters *)
Definition settable_b (q : parameter) : bool := existsb (String.eqb (par_path q)) kart_settable_paths.
Lemma kart_apply_spec : forall ps s k, kart_shape k -> Forall wf_par ps ->
  let '(k', ok) := kart_apply k ps s in
  kart_shape k' /\ stored_vectors k' = stored_vectors k /\ ok = forallb settable_b ps /\
  (ok = true -> stored_kart k' = overwrite_all (map (fun p => (par_path p, value_at p s)) ps) (stored_kart k)) /\
  (forall D, incl (map par_path ps) D -> masked D (stored_kart k') = masked D (stored_kart k)).
Proof.
  induction ps as [|p ps IH]; intros s k S W; cbn [kart_apply].
  - repeat (split; [assumption || reflexivity|]). split; reflexivity.
  - inversion W; subst. destruct (eval_total p s H1) as [v E]. rewrite E.
    destruct (kart_set_spec k (par_path p) v S) as [Y N].
    destruct (in_dec string_dec (par_path p) kart_settable_paths) as [I|I].
    + rewrite (Y I). specialize (IH s (upd_kart (par_path p) v k) (kart_shape_upd _ _ _ S) H2).
      destruct (kart_apply _ ps s) as [k' ok]. destruct IH as (S' & V & O & F & M).
      split; [exact S'|]. split; [exact V|]. split; [|split].
      * cbn [forallb]. rewrite <- O. unfold settable_b. apply in_b in I. rewrite I. reflexivity.
      * intros K. rewrite (F K), stored_kart_upd by assumption. cbn [map overwrite_all fold_left fst snd].
        assert (value_at p s = v) as -> by (unfold value_at; rewrite E; reflexivity). reflexivity.
      * intros D J. rewrite M by (intros q Hq; apply J; right; exact Hq). rewrite stored_kart_upd by assumption.
        apply masked_overwrite_in. apply J. left. reflexivity.
    + rewrite (N I). split; [exact S|]. split; [reflexivity|]. split; [|split].
      * cbn [forallb]. unfold settable_b. destruct (existsb (String.eqb (par_path p)) _) eqn:K; [|reflexivity].
        apply in_b in K. contradiction.
      * discriminate.
      * reflexivity.
Qed.

Definition kart_inv (k0 : kart) (ps : list parameter) (a : kart_all) : Prop :=
  length a = 4%nat /\ NoDup (map par_path ps) /\ Forall wf_par ps /\
  forall c, In c a -> kc_params c = ps /\ kart_shape (kc_kart c) /\
    stored_vectors (kc_kart c) = stored_vectors k0 /\
    masked (map par_path ps) (stored_kart (kc_kart c)) = masked (map par_path ps) (stored_kart k0).

Lemma one_by_one_all : forall f a, (forall c, In c a -> f c = None) -> one_by_one f a = a.
Proof. intros f [|c a] H; cbn; [reflexivity|]. rewrite (H c) by (left; reflexivity). reflexivity. Qed.
Lemma one_by_one_ok : forall f g a, (forall c, In c a -> f c = Some (g c)) -> one_by_one f a = map g a.
Proof.
  intros f g. induction a as [|c a IH]; cbn; intros H; [reflexivity|].
  rewrite (H c) by (left; reflexivity). rewrite IH by (intros; apply H; right; assumption). reflexivity.
Qed.
Lemma update_nth_in : forall a i f c, In c (update_nth a i f) -> In c a \/ exists d, In d a /\ c = f d.
Proof.
  induction a as [|x a IH]; intros [|i] f c H; cbn in *; try tauto.
  - destruct H as [<-|H]; [right; eauto|auto].
  - destruct H as [<-|H]; [auto|]. destruct (IH _ _ _ H) as [K|(d & K & E)]; [auto|right; eauto].
Qed.
Lemma update_nth_length : forall a i f, length (update_nth a i f) = length a.
Proof. induction a as [|x a IH]; intros [|i] f; cbn; auto. Qed.

Lemma NoDup_app_one : forall (A : Type) (l : list A) x, NoDup l -> ~ In x l -> NoDup (l ++ [x])%list.
Proof.
  induction l as [|a l IH]; cbn; intros x N H; [constructor; [intros []|constructor]|].
  inversion N; subst. constructor; [rewrite in_app_iff; cbn; intuition|apply IH; tauto].
Qed.

Lemma kart_inv_step : forall k0 ps a o, kart_inv k0 ps a ->
  kart_inv k0 (add_many ps (declarations [o])) (kart_step a o).
Proof.
  intros k0 ps a o (L & N & W & I). destruct o as [p v|d|i s]; cbn [declarations flat_map app add_many fold_left kart_step].
  - exact (conj L (conj N (conj W I))).
  - unfold add_one. destruct (add_parameter ps (call_path d) (call_make d)) as [ps'|] eqn:E.
    + rewrite (one_by_one_ok _ (fun c => MkKartCar (kc_kart c) ps')).
      2:{ intros c Hc. unfold kart_car_add. destruct (I c Hc) as [-> _]. rewrite E. reflexivity. }
      unfold add_parameter in E. destruct (existsb _ ps) eqn:X; [discriminate|].
      destruct (call_make d) as [p|] eqn:K; [|discriminate]. cbn in E. injection E as <-.
      destruct (made_wf d p K) as [Wp Pp].
      split; [rewrite map_length; exact L|]. split; [|split].
      * rewrite map_app. cbn. apply NoDup_app_one; [exact N|]. intros H. apply in_map_iff in H.
        destruct H as (q & Eq & Hq). assert (existsb (fun p0 => String.eqb (par_path p0) (call_path d)) ps = true); [|congruence].
        apply existsb_exists. exists q. split; [exact Hq|]. apply String.eqb_eq. congruence.
      * apply Forall_app. split; [exact W|]. constructor; [exact Wp|constructor].
      * intros c Hc. apply in_map_iff in Hc. destruct Hc as (c0 & <- & Hc). destruct (I c0 Hc) as (_ & S & V & M).
        cbn [kc_kart kc_params]. split; [reflexivity|]. split; [exact S|]. split; [exact V|].
        eapply masked_incl; [|exact M]. rewrite map_app. apply incl_appl, incl_refl.
    + rewrite one_by_one_all; [exact (conj L (conj N (conj W I)))|].
      intros c Hc. unfold kart_car_add. destruct (I c Hc) as [-> _]. rewrite E. reflexivity.
  - split; [rewrite update_nth_length; exact L|]. split; [exact N|]. split; [exact W|].
    intros c Hc. apply update_nth_in in Hc. destruct Hc as [Hc|(c0 & Hc & ->)]; [exact (I c Hc)|].
    destruct (I c0 Hc) as (P & S & V & M). unfold kart_evaluate. rewrite P.
    pose proof (kart_apply_spec ps s _ S W) as A. destruct (kart_apply _ ps s) as [k' ok].
    destruct A as (S' & V' & _ & _ & M'). cbn. split; [reflexivity|]. split; [exact S'|]. split; [congruence|].
    rewrite M' by apply incl_refl. exact M.
Qed.
Lemma kart_inv_run : forall os k0 ps a, kart_inv k0 ps a ->
  kart_inv k0 (add_many ps (declarations os)) (kart_run a os).
Proof.
  induction os as [|o os IH]; intros k0 ps a H; [exact H|].
  apply (kart_inv_step _ _ _ o) in H. apply IH in H. cbn [kart_run fold_left]. unfold kart_run in *.
  replace (add_many ps (declarations (o :: os))) with (add_many (add_many ps (declarations [o])) (declarations os)); [exact H|].
  unfold add_many. rewrite <- fold_left_app. f_equal. unfold declarations. cbn [flat_map]. rewrite app_nil_r. reflexivity.
Qed.
Lemma kart_inv_new : forall k, kart_shape k -> kart_inv k [] (kart_new k).
Proof.
  intros k S. split; [reflexivity|]. split; [constructor|]. split; [constructor|].
  intros c H. apply repeat_spec in H. subst c. cbn. auto.
Qed.

Lemma final_cons : forall k' v l k x, final ((k', v) :: l) k x = final l k (if String.eqb k k' then v else x).
Proof. reflexivity. Qed.
Lemma final_declared : forall ps s k x, NoDup (map par_path ps) -> Forall wf_par ps ->
  final (map (fun p => (par_path p, value_at p s)) ps) k x = declared_value ps s k x.
Proof.
  induction ps as [|p ps IH]; intros s k x N W; [reflexivity|]. inversion N; inversion W; subst.
  unfold declared_value. cbn [find map]. rewrite final_cons.
  rewrite (String.eqb_sym k). destruct (String.eqb (par_path p) k) eqn:E.
  - apply String.eqb_eq in E. rewrite final_other.
    + unfold value_at. destruct (eval_total p s H5) as [v Ev]. rewrite Ev. reflexivity.
    + rewrite map_map. cbn. rewrite <- E. exact H1.
  - rewrite (IH s k x H2 H6). reflexivity.
Qed.

Lemma kart_effective_spec : forall k0 ps a c s, kart_inv k0 ps a -> In c a ->
  kart_effective c s =
  if forallb settable_b ps then Some (map (fun e => (fst e, declared_value ps s (fst e) (snd e))) (stored_kart k0))
  else None.
Proof.
  intros k0 ps a c s (_ & N & W & I) Hc. destruct (I c Hc) as (P & S & V & M).
  unfold kart_effective, kart_evaluate. rewrite P.
  pose proof (kart_apply_spec ps s _ S W) as A. destruct (kart_apply _ ps s) as [k' ok].
  destruct A as (_ & _ & O & F & _). cbn. rewrite <- O. destruct ok; [|reflexivity]. rewrite (F eq_refl). f_equal.
  rewrite (masked_overwrite_all _ (map par_path ps) _ (stored_kart k0)); [|rewrite map_map; reflexivity|exact M].
  rewrite overwrite_all_map. apply map_ext. intros [q x]. cbn. rewrite final_declared by assumption. reflexivity.
Qed.
