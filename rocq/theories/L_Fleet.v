(** Lemmas about the fleet of vehicles. *)
From stdpp Require Import base strings gmap list.
From Verif Require Import S_Regex M_Regex M_Store S_Store L_Store L_StoreOut L_StoreThm M_Fleet S_Fleet.

(** *** Invariants of the objects in the store *)
Section Objects.
Context {K F T N : Type}.
Context (PK : K -> Prop) (PF : F -> Prop) (PT : T -> Prop).

Definition objects (s : store K F T N) : Prop :=
  map_Forall (fun _ => PK) (t_kart s) /\ map_Forall (fun _ => PF) (t_f1 s) /\ map_Forall (fun _ => PT) (t_track s).

Lemma mf_insert {A} (P : A -> Prop) (m : gmap string A) n a :
  map_Forall (fun _ => P) m -> P a -> map_Forall (fun _ => P) (<[n := a]> m).
Proof. intros. now apply map_Forall_insert_2. Qed.
Lemma mf_new {A} (P : A -> Prop) (m : gmap string A) n a :
  map_Forall (fun _ => P) m -> P a -> map_Forall (fun _ => P) (insert_new m n a).
Proof. intros. unfold insert_new. destruct (m !! n); [assumption|]. now apply mf_insert. Qed.
Lemma mf_delete {A} (P : A -> Prop) (m : gmap string A) n :
  map_Forall (fun _ => P) m -> map_Forall (fun _ => P) (delete n m).
Proof. intros. now apply map_Forall_delete. Qed.
Lemma mf_erase {A} (P : A -> Prop) re (m : gmap string A) :
  map_Forall (fun _ => P) m -> map_Forall (fun _ => P) (erase_matching re m).
Proof. intros H n a E. rewrite erase_matching_lookup in E. destruct (matches_name re n); [discriminate|]. exact (H n a E). Qed.
Lemma mf_get {A} (P : A -> Prop) (m : gmap string A) n a :
  map_Forall (fun _ => P) m -> m !! n = Some a -> P a.
Proof. intros H E. exact (H n a E). Qed.

(** The object functions keep the three predicates. *)
Record kept (e : env K F T N) : Prop := Kept {
  k_default : PF (e_f1_default e);
  k_set : forall c p x, PF c -> PF (e_f1_set e c p x).1;
  k_add : forall c p a x, PF c -> PF (e_f1_add e c p a x).1;
  k_kadd : forall c p a x, PK c -> PK (e_kart_add e c p a x).1;
  k_addv : forall c p a x g, PF c -> PF (e_f1_addv e c p a x g).1;
  k_kaddv : forall c p a x g, PK c -> PK (e_kart_addv e c p a x g).1;
  k_track : forall c t, PF c -> PT t -> PF (e_f1_track e c t).1;
  k_ktrack : forall c t, PK c -> PT t -> PK (e_kart_track e c t).1;
  k_limit : forall t b sd wd, PT t -> PT (e_track_limit e t b sd wd).1
}.

(** Objects brought in by a call satisfy them. *)
Definition brings (c : call K F T N) : Prop :=
  match c with
  | CreateVehicleFromXml _ (Some f) =>
      (forall k, vf_kart f = Some k -> PK k) /\ (forall k, vf_f1 f = Some k -> PF k)
  | CreateTrackFromXml _ (Some f) => forall t, tf_track f = Some t -> PT t
  | CircuitPreprocessor r => PT (pr_track r)
  | _ => True
  end.

Lemma store_laptime_tables (s : store K F T N) (r : laptime_run N) s' res :
  store_laptime s r = (s', res) -> t_kart s' = t_kart s /\ t_f1 s' = t_f1 s /\ t_track s' = t_track s.
Proof. intro E. destruct (store_laptime_ext s r s' res E) as (A & B & C & _). auto. Qed.

Ltac objs :=
  repeat split; simpl;
  repeat first [assumption | apply mf_insert | apply mf_new | apply mf_delete | apply mf_erase
               | solve [eauto using mf_get]
               | match goal with A : map_Forall _ ?m, H : ?m !! _ = Some ?a |- _ ?a => exact (A _ _ H) end
               | match goal with H : forall k, Some _ = Some k -> _ |- _ => apply H; reflexivity end].

Lemma step_objects e s c s' res : kept e -> brings c -> objects s -> step e s c = (s', res) -> objects s'.
Proof.
  intros [K1 K2 K3 K4 K5 K6 K7 K8 K9] HB (H1 & H2 & H3) E.
  destruct c as [m file|m ty|m file|m x|m len data|a b|a b|p|m|m|m len|m|m len v|m|m p x|m p al x
    |m p al x g|m tr|m side sd wd|m tr lr|pr|m tr uc ok|m ok|m ok]; simpl in HB, E;
    try (injection E as <- <-; repeat split; assumption).
  - unfold create_vehicle_from_xml in E. destruct file as [f|]; repeat case_match; simplify_eq; try (repeat split; assumption);
      destruct HB; objs.
  - unfold create_vehicle_empty in E. repeat case_match; simplify_eq; try (repeat split; assumption); objs.
  - unfold create_track_from_xml in E. destruct file as [f|]; repeat case_match; simplify_eq; try (repeat split; assumption);
      objs.
  - unfold create_scalar in E. repeat case_match; simplify_eq; objs.
  - unfold create_vector in E. repeat case_match; simplify_eq; objs.
  - unfold copy_variable in E. repeat case_match; simplify_eq; objs.
  - unfold move_variable in E. repeat case_match; simplify_eq; objs.
  - unfold delete_variable in E. repeat case_match; simplify_eq; objs.
  - unfold vehicle_set_parameter in E. destruct (t_f1 s !! m) as [c|] eqn:Ec; [|simplify_eq; objs].
    pose proof (K2 c p x (mf_get _ _ _ _ H2 Ec)) as HK. destruct (e_f1_set e c p x) as [c' b]. simplify_eq. objs.
  - unfold vehicle_declare_constant in E. destruct (t_f1 s !! m) as [c|] eqn:Ec.
    { pose proof (K3 c p al x (mf_get _ _ _ _ H2 Ec)) as HK. destruct (e_f1_add e c p al x) as [c' b]. simplify_eq. objs. }
    destruct (t_kart s !! m) as [c|] eqn:Ec2; [|simplify_eq; objs].
    pose proof (K4 c p al x (mf_get _ _ _ _ H1 Ec2)) as HK. destruct (e_kart_add e c p al x) as [c' b]. simplify_eq. objs.
  - unfold vehicle_declare_variable in E. destruct (t_f1 s !! m) as [c|] eqn:Ec.
    { pose proof (K5 c p al x g (mf_get _ _ _ _ H2 Ec)) as HK. destruct (e_f1_addv e c p al x g) as [c' b]. simplify_eq. objs. }
    destruct (t_kart s !! m) as [c|] eqn:Ec2; [|simplify_eq; objs].
    pose proof (K6 c p al x g (mf_get _ _ _ _ H1 Ec2)) as HK. destruct (e_kart_addv e c p al x g) as [c' b]. simplify_eq. objs.
  - unfold vehicle_change_track in E. destruct (t_kart s !! m) as [c|] eqn:Ec.
    { destruct (t_track s !! tr) as [t|] eqn:Et; [|simplify_eq; objs].
      pose proof (K8 c t (mf_get _ _ _ _ H1 Ec) (mf_get _ _ _ _ H3 Et)) as HK.
      destruct (e_kart_track e c t) as [c' b]. simplify_eq. objs. }
    destruct (t_f1 s !! m) as [c|] eqn:Ec2; [|simplify_eq; objs].
    destruct (t_track s !! tr) as [t|] eqn:Et; [|simplify_eq; objs].
    pose proof (K7 c t (mf_get _ _ _ _ H2 Ec2) (mf_get _ _ _ _ H3 Et)) as HK.
    destruct (e_f1_track e c t) as [c' b]. simplify_eq. objs.
  - unfold track_set_limit in E. destruct (t_track s !! m) as [t|] eqn:Et; [|simplify_eq; objs].
    pose proof (fun b => K9 t b sd wd (mf_get _ _ _ _ H3 Et)) as HK.
    destruct (String.eqb side "left").
    { specialize (HK true). destruct (e_track_limit e t true sd wd). simplify_eq. objs. }
    destruct (String.eqb side "right"); [|simplify_eq; objs].
    specialize (HK false). destruct (e_track_limit e t false sd wd). simplify_eq. objs.
  - unfold optimal_laptime in E. destruct (t_kart s !! m) as [c|] eqn:Ec.
    { destruct (t_track s !! tr) as [t|] eqn:Et; [|simplify_eq; objs].
      destruct (negb (lr_options lr)); [simplify_eq; objs|].
      pose proof (K8 c t (mf_get _ _ _ _ H1 Ec) (mf_get _ _ _ _ H3 Et)) as HK.
      destruct (e_kart_track e c t) as [c' b]. destruct (b && lr_computed lr); [|simplify_eq; objs].
      apply store_laptime_tables in E as (E1 & E2 & E3). unfold objects. rewrite E1, E2, E3. objs. }
    destruct (t_f1 s !! m) as [c|] eqn:Ec2; [|simplify_eq; objs].
    destruct (t_track s !! tr) as [t|] eqn:Et; [|simplify_eq; objs].
    destruct (negb (lr_options lr)); [simplify_eq; objs|].
    pose proof (K7 c t (mf_get _ _ _ _ H2 Ec2) (mf_get _ _ _ _ H3 Et)) as HK.
    destruct (e_f1_track e c t) as [c' b]. destruct (b && lr_computed lr); [|simplify_eq; objs].
    apply store_laptime_tables in E as (E1 & E2 & E3). unfold objects. rewrite E1, E2, E3. objs.
  - unfold circuit_preprocessor, prep_track_phase, prep_vector_phase in E.
    repeat case_match; simplify_eq; objs.
  - unfold propagate_vehicle in E. destruct (t_kart s !! m) as [c|] eqn:Ec.
    { destruct uc; [|simplify_eq; objs].
      destruct (t_track s !! tr) as [t|] eqn:Et; [|simplify_eq; objs].
      pose proof (K8 c t (mf_get _ _ _ _ H1 Ec) (mf_get _ _ _ _ H3 Et)) as HK.
      destruct (e_kart_track e c t) as [c' b]. simplify_eq. objs. }
    destruct (t_f1 s !! m) as [c|] eqn:Ec2; [|simplify_eq; objs].
    destruct uc; [|simplify_eq; objs].
    destruct (t_track s !! tr) as [t|] eqn:Et; [|simplify_eq; objs].
    pose proof (K7 c t (mf_get _ _ _ _ H2 Ec2) (mf_get _ _ _ _ H3 Et)) as HK.
    destruct (e_f1_track e c t) as [c' b]. simplify_eq. objs.
  - unfold vehicle_solve in E. repeat case_match; simplify_eq; objs.
  - unfold vehicle_solve in E. repeat case_match; simplify_eq; objs.
Qed.

Lemma run_objects e cs : kept e -> forall s s' rs, Forall brings cs -> objects s -> run e s cs = (s', rs) -> objects s'.
Proof.
  intro HK. induction cs as [|c cs IH]; intros s s' rs HF HO; simpl.
  - intros [= <- <-]. exact HO.
  - inversion HF; subst. destruct (step e s c) as [s1 r] eqn:Es. destruct (run e s1 cs) as [s2 rs2] eqn:Er.
    intros [= <- <-]. eapply IH; [..|exact Er]; [assumption|]. eapply step_objects; eauto.
Qed.

Lemma objects_empty : objects empty_store.
Proof. repeat split; apply map_Forall_empty. Qed.

End Objects.

(** *** The fleet *)
Section Fleet.
Context {M T N : Type}.
Notation veh := (vehicle M T).
Implicit Types (p : parts M T N) (v : veh).

Lemma on_all_same (f : M -> option M) v : same_parameters v ->
  same_parameters (on_all f v).1 /\ track_ad (on_all f v).1 = track_ad v /\ track_scalar (on_all f v).1 = track_scalar v.
Proof.
  destruct v as [a b c d t u]. intros (E1 & E2 & E3); simpl in *; subst. unfold on_all; simpl.
  destruct (f a) as [m|]; simpl; repeat split.
Qed.

Lemma on_all_tracks (f : M -> option M) v :
  track_ad (on_all f v).1 = track_ad v /\ track_scalar (on_all f v).1 = track_scalar v.
Proof. unfold on_all. repeat case_match; auto. Qed.

Definition ok_f1 v : Prop := same_parameters v /\ same_track v.
Definition any_track (_ : T) : Prop := True.

Lemma on_all_ok (f : M -> option M) v : ok_f1 v -> ok_f1 (on_all f v).1.
Proof.
  intros [H1 H2]. destruct (on_all_same f v H1) as (A & B & C). split; [exact A|].
  unfold same_track in *. congruence.
Qed.

Lemma kart_track_parameters p v t : same_parameters v -> same_parameters (kart_change_track p v t).1.
Proof. intros H. unfold kart_change_track. simpl. repeat case_match; exact H. Qed.

Lemma kept_any p : kept same_parameters ok_f1 any_track (fleet_env p).
Proof.
  split; simpl; try (intros; now apply on_all_ok); try exact (fun _ _ _ _ _ => I);
    try (intros; now apply on_all_same).
  - repeat split.
  - intros v t [H _] _. split; [exact H|reflexivity].
  - intros v t H _. now apply kart_track_parameters.
Qed.

Lemma kept_flat p : limits_keep_elevation p ->
  kept ok_f1 ok_f1 (fun t => p_elevated p t = false) (fleet_env p).
Proof.
  intro HL. split; simpl; try (intros; now apply on_all_ok).
  - repeat split.
  - intros v t [H _] _. split; [exact H|reflexivity].
  - intros v t [H _] Ht. unfold kart_change_track. simpl. rewrite Ht. simpl. split; [exact H|reflexivity].
  - intros t b sd wd Ht. now rewrite HL.
Qed.

Lemma uniform_brings c : loads_uniform (M:=M) (T:=T) (N:=N) c -> brings same_parameters ok_f1 any_track c.
Proof.
  destruct c; simpl; auto; try (intros; exact I).
  - destruct file as [f|]; auto. intros [H1 H2]. split.
    + intros k E. destruct (H1 k E) as (m & t & ->). repeat split.
    + intros k E. destruct (H2 k E) as (m & t & ->). repeat split.
  - destruct file as [f|]; [intros _ t _; exact I|auto].
Qed.

Lemma uniform_brings_flat p c : loads_uniform c -> brings_flat p c ->
  brings ok_f1 ok_f1 (fun t => p_elevated p t = false) c.
Proof.
  destruct c; simpl; auto.
  destruct file as [f|]; auto. intros [H1 H2] _. split.
    + intros k E. destruct (H1 k E) as (m & t & ->). repeat split.
    + intros k E. destruct (H2 k E) as (m & t & ->). repeat split.
Qed.

Lemma fleet_agrees p cs s' rs : Forall loads_uniform cs -> run (fleet_env p) empty_store cs = (s', rs) ->
  (forall n v, has_vehicle s' n v -> same_parameters v) /\
  (forall n v, holds s' n (VarF1 v) -> same_track v).
Proof.
  intros HF E.
  destruct (run_objects _ _ _ _ cs (kept_any p) empty_store s' rs
              (Forall_impl _ _ _ HF uniform_brings) (objects_empty _ _ _) E) as (H1 & H2 & _).
  split.
  - intros n v [H|H]; [exact (H1 n v H)|exact (proj1 (H2 n v H))].
  - intros n v H. exact (proj2 (H2 n v H)).
Qed.

Lemma fleet_agrees_flat p cs s' rs : limits_keep_elevation p ->
  Forall loads_uniform cs -> Forall (brings_flat p) cs -> run (fleet_env p) empty_store cs = (s', rs) ->
  forall n v, has_vehicle s' n v -> same_parameters v /\ same_track v.
Proof.
  intros HL HF HB E.
  assert (HC : Forall (brings ok_f1 ok_f1 (fun t => p_elevated p t = false)) cs).
  { apply Forall_forall. intros c Hc. apply uniform_brings_flat; [now apply (proj1 (Forall_forall _ _) HF)|].
    now apply (proj1 (Forall_forall _ _) HB). }
  destruct (run_objects _ _ _ _ cs (kept_flat p HL) empty_store s' rs HC (objects_empty _ _ _) E) as (H1 & H2 & _).
  intros n v [H|H]; [exact (H1 n v H)|exact (H2 n v H)].
Qed.

(** *** Keeping the track *)
Definition keeps (s s' : store veh veh T N) n t : Prop :=
  forall v, has_vehicle s n v -> on_track v t -> exists v', has_vehicle s' n v' /\ on_track v' t.

Lemma step_keeps p s c s' res n t : keeps_track n c -> step (fleet_env p) s c = (s', res) ->
  (exists v, has_vehicle s n v /\ on_track v t) -> exists v, has_vehicle s' n v /\ on_track v t.
Proof.
  intros HK E (v & Hv & Ht).
  assert (fr : unrelated c n -> exists w, has_vehicle s' n w /\ on_track w t).
  { intro HU. pose proof (same_at_holds _ _ _ (step_frame _ _ _ _ _ _ HU E)) as HH.
    exists v. split; [|exact Ht]. destruct Hv; [left|right]; now apply HH. }
  destruct c as [m file|m ty|m file|m x|m len data|a b|a b|q|m|m|m len|m|m len w|m|m q x|m q al x
    |m q al x g|m tr|m side sd wd|m tr lr|pr|m tr uc ok|m ok|m ok]; try (apply fr; exact HK).
  - (* set parameter *)
    destruct (decide (n = m)) as [->|Hn]; [|now apply fr].
    simpl in E. unfold vehicle_set_parameter in E.
    destruct (t_f1 s !! m) as [c|] eqn:Ec; [|simplify_eq; eauto].
    simpl in E. pose proof (on_all_tracks (fun m0 => p_set p m0 q x) c) as [T1 T2].
    destruct (on_all _ c) as [c' b]. simplify_eq. simpl in T1, T2.
    destruct Hv as [Hv|Hv]; simpl in Hv.
    + exists v. split; [left; exact Hv|exact Ht].
    + exists c'. split; [right; simpl; apply lookup_insert|]. simplify_eq.
      destruct Ht. split; congruence.
  - destruct (decide (n = m)) as [->|Hn]; [|now apply fr].
    simpl in E. unfold vehicle_declare_constant in E.
    destruct (t_f1 s !! m) as [c|] eqn:Ec.
    + simpl in E. pose proof (on_all_tracks (fun m0 => p_add p m0 q al x) c) as [T1 T2].
      destruct (on_all _ c) as [c' b]. simplify_eq. simpl in T1, T2.
      destruct Hv as [Hv|Hv]; simpl in Hv.
      * exists v. split; [left; exact Hv|exact Ht].
      * exists c'. split; [right; simpl; apply lookup_insert|]. simplify_eq. destruct Ht. split; congruence.
    + destruct (t_kart s !! m) as [c|] eqn:Ec2; [|simplify_eq; eauto].
      simpl in E. pose proof (on_all_tracks (fun m0 => p_add p m0 q al x) c) as [T1 T2].
      destruct (on_all _ c) as [c' b]. simplify_eq. simpl in T1, T2.
      destruct Hv as [Hv|Hv]; simpl in Hv; [|congruence].
      exists c'. split; [left; simpl; apply lookup_insert|]. simplify_eq. destruct Ht. split; congruence.
  - destruct (decide (n = m)) as [->|Hn]; [|now apply fr].
    simpl in E. unfold vehicle_declare_variable in E.
    destruct (t_f1 s !! m) as [c|] eqn:Ec.
    + simpl in E. pose proof (on_all_tracks (fun m0 => p_addv p m0 q al x g) c) as [T1 T2].
      destruct (on_all _ c) as [c' b]. simplify_eq. simpl in T1, T2.
      destruct Hv as [Hv|Hv]; simpl in Hv.
      * exists v. split; [left; exact Hv|exact Ht].
      * exists c'. split; [right; simpl; apply lookup_insert|]. simplify_eq. destruct Ht. split; congruence.
    + destruct (t_kart s !! m) as [c|] eqn:Ec2; [|simplify_eq; eauto].
      simpl in E. pose proof (on_all_tracks (fun m0 => p_addv p m0 q al x g) c) as [T1 T2].
      destruct (on_all _ c) as [c' b]. simplify_eq. simpl in T1, T2.
      destruct Hv as [Hv|Hv]; simpl in Hv; [|congruence].
      exists c'. split; [left; simpl; apply lookup_insert|]. simplify_eq. destruct Ht. split; congruence.
  - (* track limits: the tracks table only *)
    simpl in E. unfold track_set_limit in E.
    repeat case_match; simplify_eq; exists v; (split; [exact Hv|exact Ht]).
  - destruct HK as [->|Hn]; [|now apply fr].
    simpl in E. unfold propagate_vehicle in E. repeat case_match; simplify_eq; eauto.
Qed.

Lemma run_keeps p n t cs : forall s s' rs, Forall (keeps_track n) cs -> run (fleet_env p) s cs = (s', rs) ->
  (exists v, has_vehicle s n v /\ on_track v t) -> exists v, has_vehicle s' n v /\ on_track v t.
Proof.
  induction cs as [|c cs IH]; intros s s' rs HF; simpl.
  - intros [= <- <-]. auto.
  - inversion HF; subst. destruct (step (fleet_env p) s c) as [s1 r] eqn:Es.
    destruct (run (fleet_env p) s1 cs) as [s2 rs2] eqn:Er.
    intros [= <- <-] H. eapply IH; [eassumption|exact Er|]. eapply step_keeps; eauto.
Qed.

Lemma change_track_sets p s n tr t s' : t_track s !! tr = Some t ->
  (exists v, has_vehicle s n v) -> step (fleet_env p) s (VehicleChangeTrack n tr) = (s', Ret VUnit) ->
  exists v, has_vehicle s' n v /\ on_track v t.
Proof.
  intros Et Hv E. simpl in E. unfold vehicle_change_track in E. rewrite Et in E.
  destruct (t_kart s !! n) as [k|] eqn:Ek.
  - simpl in E. unfold kart_change_track in E. simpl in E.
    destruct (p_elevated p t); simplify_eq.
    eexists. split; [left; simpl; apply lookup_insert|]. split; reflexivity.
  - destruct (t_f1 s !! n) as [c|] eqn:Ec.
    + simpl in E. simplify_eq. eexists. split; [right; simpl; apply lookup_insert|]. split; reflexivity.
    + destruct Hv as [v [Hv|Hv]]; simpl in Hv; congruence.
Qed.

End Fleet.
