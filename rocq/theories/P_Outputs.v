(** C120: names of the outputs, inputs and controls of a vehicle. *)
From Coq Require Import Reals String Ascii Arith Lia List Permutation QArith.
From Verif Require Import M_Vec M_Tire M_Car M_Vehicle M_Controls M_Options M_Outputs S_Outputs.
From Verif Require M_Python S_Python P_Python S_Buffers.
Import ListNotations.
Local Open Scope nat_scope.
Local Open Scope string_scope.
Local Open Scope list_scope.

(** ** Lists of quantities *)
Definition axes : list axis := [X; Y; Z].
Definition tyre_quantities : list tyre_quantity :=
  map Where axes ++ map Moves axes ++ map MovesInCar axes ++ [SideSlip; LongSlip; Dissipated] ++ map Force axes ++
  map ForceFixed axes ++ [Spin].
Definition body_quantities : list body_quantity :=
  [AccelLong; AccelLat] ++ map TotalForce axes ++ map TotalTorque axes ++ [AccelYaw; Position PX; Position PY; Yaw; Understeer; Cd;
   Lift; Drag; DragAlong PX; DragAlong PY; Wind PX; Wind PY; Airspeed PX; Airspeed PY].
Definition quantities : list quantity :=
  map OfBody body_quantities ++ map (OfTyre FrontLeft) tyre_quantities ++ map (OfTyre FrontRight) tyre_quantities ++
  map (OfTyre RearLeft) tyre_quantities ++ map (OfTyre RearRight) tyre_quantities.

Lemma quantities_all q : In q quantities.
Proof.
  unfold quantities. rewrite !in_app_iff.
  assert (T : forall t, In t tyre_quantities).
  { intros [[| |]|[| |]|[| |]| | | |[| |]|[| |]|]; cbn; tauto. }
  destruct q as [c t|b].
  - right. destruct c; [left|right; left|right; right; left|right; right; right]; apply in_map, T.
  - left. apply in_map. destruct b as [| | |[| |]|[| |]|[|]| | | | | |[|]|[|]|[|]]; cbn; tauto.
Qed.

Fixpoint distinct (l : list string) : bool :=
  match l with [] => true | a :: l' => negb (existsb (String.eqb a) l') && distinct l' end.
Lemma distinct_nodup l : distinct l = true -> NoDup l.
Proof.
  induction l as [|a l IH]; intro H; [constructor|]. cbn in H. apply andb_prop in H as [H1 H2]. constructor; [|auto].
  intro HI. assert (E : existsb (String.eqb a) l = true) by (apply existsb_exists; exists a; split; [exact HI|apply String.eqb_refl]).
  now rewrite E in H1.
Qed.

Lemma names_nodup : NoDup (map quantity_name quantities).
Proof. apply distinct_nodup. vm_compute. reflexivity. Qed.

(** ** The map *)
Definition entries (v : vehicle) : out_map := map (fun q => (quantity_name q, quantity_value q v)) quantities.

Lemma find_none m n : ~ In n (map fst m) -> find m n = None.
Proof.
  intro H. unfold find. induction m as [|e m IH]; [reflexivity|]. cbn. destruct (String.eqb_spec (fst e) n) as [E|_].
  - exfalso. apply H. now left.
  - apply IH. intro K. apply H. now right.
Qed.
Lemma find_in m n x : NoDup (map fst m) -> In (n, x) m -> find m n = Some x.
Proof.
  unfold find. induction m as [|[a y] m IH]; intros ND HI; [easy|]. inversion ND as [|? ? Ha ND']; subst. cbn.
  destruct (String.eqb_spec a n) as [->|Hne].
  - destruct HI as [[= ->]|HI]; [reflexivity|]. exfalso. apply Ha. apply in_map_iff. now exists (n, x).
  - destruct HI as [[= -> _]|HI]; [easy|]. now apply IH.
Qed.
Lemma insert_app m l : NoDup (map fst (m ++ l)) -> insert m l = m ++ l.
Proof.
  unfold insert. revert m. induction l as [|e l IH]; intros m ND; cbn; [now rewrite app_nil_r|].
  assert (E : insert1 m e = m ++ [e]).
  { unfold insert1. rewrite find_none; [reflexivity|]. rewrite map_app in ND. cbn in ND. apply NoDup_remove_2 in ND.
    intro H. apply ND. apply in_app_iff. now left. }
  rewrite E. rewrite IH; rewrite <- app_assoc; [reflexivity|exact ND].
Qed.
Lemma of_list_id l : NoDup (map fst l) -> of_list l = l.
Proof. intro H. unfold of_list. now rewrite insert_app. Qed.

Lemma insert_empty l : NoDup (map fst l) -> insert (of_list []) l = l.
Proof. exact (of_list_id l). Qed.

Ltac by_names := rewrite ?map_app; apply distinct_nodup; vm_compute; reflexivity.

Definition tyre_entries (name : string) (t : tyre) : out_map :=
  map (fun q => (name ++ "." ++ tyre_quantity_name q, tyre_value q t)%string) tyre_quantities.
Lemma tire_outputs_entries c t : tire_outputs (corner_name c) t = tyre_entries (corner_name c) t.
Proof.
  unfold tire_outputs. assert (E : tire_outputs_self (corner_name c) t = tyre_entries (corner_name c) t).
  { unfold tire_outputs_self. cbv zeta. rewrite of_list_id by (destruct c; by_names). destruct c; reflexivity. }
  rewrite E. apply insert_empty. destruct c; by_names.
Qed.
Lemma axle_outputs_entries c d t0 t1 : (c = FrontLeft /\ d = FrontRight) \/ (c = RearLeft /\ d = RearRight) ->
  axle_car_outputs (corner_name c) (corner_name d) t0 t1 = tyre_entries (corner_name c) t0 ++ tyre_entries (corner_name d) t1.
Proof.
  intro H. unfold axle_car_outputs, axle_outputs. rewrite !tire_outputs_entries. rewrite (insert_empty (tyre_entries _ t0)) by (destruct c; by_names).
  rewrite (insert_app (tyre_entries (corner_name c) t0)) by (destruct H as [[-> ->]|[-> ->]]; by_names).
  apply insert_empty. destruct H as [[-> ->]|[-> ->]]; by_names.
Qed.
Lemma chassis_self_entries b :
  chassis_outputs_self b = map (fun q => ("chassis." ++ body_quantity_name q, body_value q b)%string) body_quantities.
Proof. unfold chassis_outputs_self. cbv zeta. rewrite of_list_id by by_names. reflexivity. Qed.

Lemma map_entries k v : outputs_map (names_of k) v = entries v.
Proof.
  assert (N : names_of k = TyreNames (corner_name FrontLeft) (corner_name FrontRight) (corner_name RearLeft) (corner_name RearRight))
    by (destruct k; reflexivity).
  rewrite N. unfold outputs_map, chassis_outputs. cbn [n_fl n_fr n_rl n_rr].
  rewrite !axle_outputs_entries by tauto. rewrite chassis_self_entries.
  rewrite (insert_app (map _ body_quantities)) by by_names. rewrite (insert_app (map _ body_quantities ++ _)) by by_names.
  rewrite insert_empty by by_names. unfold entries, quantities. rewrite !map_app, !map_map, <- !app_assoc. reflexivity.
Qed.

Lemma entries_names v : map fst (entries v) = map quantity_name quantities.
Proof. unfold entries. now rewrite map_map. Qed.

(** *** C120 *)

(** Each quantity is found under its name, whichever constructor made the vehicle and whatever the order of the map. *)
Theorem C120_each_output_under_its_name k v m : Permutation (outputs_map (names_of k) v) m ->
  forall q, get_output m (quantity_name q) = Ok (quantity_value q v).
Proof.
  intros P q. rewrite map_entries in P. unfold get_output.
  rewrite (find_in m (quantity_name q) (quantity_value q v)); [reflexivity| |].
  - apply (Permutation_NoDup (Permutation_map fst P)). rewrite entries_names. exact names_nodup.
  - apply (Permutation_in _ P). unfold entries. apply in_map_iff. exists q. split; [reflexivity|apply quantities_all].
Qed.

(** Nothing else is found: another name is an error. *)
Theorem C120_other_names_throw k v m name : Permutation (outputs_map (names_of k) v) m ->
  (forall q, name <> quantity_name q) -> get_output m name = Throw.
Proof.
  intros P H. rewrite map_entries in P. unfold get_output. rewrite find_none; [reflexivity|].
  intro HI. apply (Permutation_in _ (Permutation_sym (Permutation_map fst P))) in HI. rewrite entries_names in HI.
  apply in_map_iff in HI as (q & E & _). now apply (H q).
Qed.

(** The names that are published are those of the quantities, each once: 98. A vehicle made from a database has those of one made
    without, so the sizes of the type are right for the vehicle. *)
Theorem C120_published_names k v m : Permutation (outputs_map (names_of k) v) m ->
  number_of_outputs m = 98 /\ NoDup (output_names m) /\
  (forall name, In name (output_names m) <-> exists q, name = quantity_name q) /\
  forall k' v' m', Permutation (outputs_map (names_of k') v') m' ->
    number_of_outputs m' = number_of_outputs m /\ Permutation (output_names m') (output_names m).
Proof.
  intro P. rewrite map_entries in P. unfold number_of_outputs, output_names.
  split; [rewrite <- (Permutation_length P); reflexivity|].
  split; [apply (Permutation_NoDup (Permutation_map fst P)); rewrite entries_names; exact names_nodup|].
  split.
  - intro name. split; intro H.
    + apply (Permutation_in _ (Permutation_sym (Permutation_map fst P))) in H. rewrite entries_names in H.
      apply in_map_iff in H as (q & E & _). now exists q.
    + destruct H as [q ->]. apply (Permutation_in _ (Permutation_map fst P)). rewrite entries_names. apply in_map, quantities_all.
  - intros k' v' m' P'. rewrite map_entries in P'. split.
    + rewrite <- (Permutation_length P), <- (Permutation_length P'). unfold entries. now rewrite !map_length.
    + rewrite <- (Permutation_map fst P), <- (Permutation_map fst P'), !entries_names. reflexivity.
Qed.

Theorem C120_no_two_quantities_share_a_name q q' : quantity_name q = quantity_name q' -> q = q'.
Proof.
  intro E. assert (forall (l : list quantity), NoDup (map quantity_name l) -> In q l -> In q' l -> q = q') as G.
  { induction l as [|a l IH]; intros ND H1 H2; [easy|]. inversion ND as [|? ? Ha ND']; subst.
    destruct H1 as [->|H1], H2 as [->|H2]; [reflexivity| | |now apply IH].
    - exfalso. apply Ha. rewrite E. now apply in_map.
    - exfalso. apply Ha. rewrite <- E. now apply in_map. }
  apply (G quantities names_nodup); apply quantities_all.
Qed.

(** ** Inputs and controls *)
Lemma called_at {A} names (values : list A) name i x : NoDup names -> nth_error names i = Some name -> nth_error values i = Some x ->
  called names values name x.
Proof.
  intros ND H1 H2. exists i. split; [exact H1|]. split; [exact H2|]. intros j Hj.
  rewrite NoDup_nth_error in ND. symmetry. apply ND; [apply nth_error_Some; congruence|congruence].
Qed.
Lemma called_of (q : list R) names n i o : NoDup names -> length q = length names -> nth_error names i = Some n ->
  o = nth_error q i -> exists x, o = Some x /\ called names q n x.
Proof.
  intros ND L H ->. destruct (nth_error q i) as [x|] eqn:E.
  - exists x. split; [reflexivity|]. now apply (called_at _ _ _ i).
  - exfalso. apply nth_error_None in E. assert (i < length names) by (apply nth_error_Some; congruence). lia.
Qed.

Ltac meanings :=
  repeat match goal with
  | H : In _ (_ :: _) |- _ => destruct H as [[= <- <-]|H]
  | H : In _ [] |- _ => destruct H
  end.
Ltac at_index := let go i := (eapply (called_of _ _ _ i); [by_names|eassumption|reflexivity|reflexivity]) in
  first [go 0|go 1|go 2|go 3|go 4|go 5|go 6|go 7|go 8|go 9|go 10|go 11|go 12|go 13].

(** An evaluation of the Formula 1 car sets each of its quantities from the entry of the inputs, or of the controls, that the
    published names call by the name of the quantity. No entry is left over. *)
Theorem C120_f1_inputs_under_their_names q u : length q = length f1_input_names -> length u = length f1_control_names ->
  (forall name o, In (name, o) (f1_meaning (f1_set_state q u)) -> exists x, o = Some x /\ called f1_input_names q name x) /\
  (forall name o, In (name, o) (f1_control_meaning (f1_set_state q u)) -> exists x, o = Some x /\ called f1_control_names u name x) /\
  Permutation (map fst (f1_meaning (f1_set_state q u))) f1_input_names /\
  Permutation (map fst (f1_control_meaning (f1_set_state q u))) f1_control_names.
Proof.
  intros Lq Lu. split; [|split; [|split; vm_compute; reflexivity]].
  - intros name o H. unfold f1_meaning in H. meanings; at_index.
  - intros name o H. unfold f1_control_meaning in H. meanings; at_index.
Qed.

Theorem C120_kart_inputs_under_their_names q u : length q = length kart_input_names -> length u = length kart_control_names ->
  (forall name o, In (name, o) (kart_meaning (kart_set_state q u)) -> exists x, o = Some x /\ called kart_input_names q name x) /\
  (forall name o, In (name, o) (kart_control_meaning (kart_set_state q u)) -> exists x, o = Some x /\ called kart_control_names u name x) /\
  Permutation (map fst (kart_meaning (kart_set_state q u))) kart_input_names /\
  Permutation (map fst (kart_control_meaning (kart_set_state q u))) kart_control_names.
Proof.
  intros Lq Lu. split; [|split; [|split]].
  - intros name o H. unfold kart_meaning in H. meanings; at_index.
  - intros name o H. unfold kart_control_meaning in H. meanings; at_index.
  - apply NoDup_Permutation; [by_names|by_names|]. intro x. change kart_input_names with
      ["rear-axle.omega"; "chassis.velocity.x"; "chassis.velocity.y"; "chassis.omega.z"; "chassis.position.z"; "chassis.attitude.phi";
       "chassis.attitude.mu"; "chassis.velocity.z"; "chassis.omega.x"; "chassis.omega.y"; "time"; "road.lateral-displacement";
       "road.track-heading-angle"]. cbn [map kart_meaning fst In]. tauto.
  - vm_compute; reflexivity.
Qed.

(** ** One name, one meaning *)

(** The key, the inputs, the controls, the outputs, the lap time and the integral quantities never share a name: in all that a
    run saves by default, each name stands for one quantity. *)
Lemma all_variables_nodup v m k w : Permutation (outputs_map (names_of k) w) m -> v_outputs v = output_names m ->
  distinct ((v_key v :: v_inputs v) ++ v_controls v ++ map quantity_name quantities ++ "laptime" ::
   map (String.append "integral_quantities.") (v_integrals v)) = true -> NoDup (all_variables v).
Proof.
  intros P E D. apply distinct_nodup in D. unfold all_variables. rewrite E. eapply Permutation_NoDup; [|exact D].
  apply Permutation_app_head, Permutation_app_head, Permutation_app_tail.
  rewrite map_entries in P. unfold output_names. rewrite <- (entries_names w). now apply Permutation_map.
Qed.

Theorem C120_names_never_collide k w m ql qu ul uu : Permutation (outputs_map (names_of k) w) m ->
  NoDup (all_variables (f1_info (output_names m) ql qu ul uu)) /\ NoDup (all_variables (kart_info (output_names m) ql qu ul uu)).
Proof.
  intro P. split; apply (all_variables_nodup _ m k w); try exact P; try reflexivity; vm_compute; reflexivity.
Qed.

(** So each name that is asked for gives its own quantity: the order in which the lists are searched does not matter. *)
Theorem C120_saved_under_its_name k w m ql qu ul uu v outputs q u s :
  Permutation (outputs_map (names_of k) w) m ->
  v = f1_info (output_names m) ql qu ul uu \/ v = kart_info (output_names m) ql qu ul uu ->
  saved_value v outputs q u s (v_key v) = Ok s /\
  (forall i name x, nth_error (v_inputs v) i = Some name -> nth_error q i = Some x -> saved_value v outputs q u s name = Ok x) /\
  (forall i name x, nth_error (v_controls v) i = Some name -> nth_error u i = Some x -> saved_value v outputs q u s name = Ok x) /\
  (forall o x, outputs q u s (quantity_name o) = Some x -> saved_value v outputs q u s (quantity_name o) = Ok x).
Proof.
  intros P Hv.
  assert (ND : NoDup (v_key v :: v_inputs v ++ v_controls v ++ output_names m)).
  { pose proof (C120_names_never_collide k w m ql qu ul uu P) as [H1 H2].
    assert (H : NoDup (all_variables v)) by (destruct Hv as [->| ->]; assumption).
    unfold all_variables in H. assert (Eo : v_outputs v = output_names m) by (destruct Hv as [->| ->]; reflexivity). rewrite Eo in H.
    rewrite (app_assoc (v_controls v)), app_assoc in H.
    set (tail := "laptime" :: _) in H. clearbody tail.
    assert (G : forall (A : Type) (a b : list A), NoDup (a ++ b) -> NoDup a).
    { intros A a b. induction a as [|x a IH]; intro N; [constructor|]. inversion N as [|? ? Hx N']; subst. constructor; [|auto].
      intro K. apply Hx. apply in_app_iff. now left. }
    apply G in H. cbn [app] in H. exact H. }
  inversion ND as [|? ? Hk ND']; subst. clear ND.
  assert (Hindex : forall l i name, NoDup l -> nth_error l i = Some name -> index_of name l = Some i).
  { intros l. induction l as [|a l IH]; intros i name N H; [now destruct i|]. inversion N as [|? ? Ha N']; subst.
    destruct i as [|i]; cbn in H.
    - injection H as ->. cbn. now rewrite String.eqb_refl.
    - cbn. assert (Hne : a <> name) by (intros ->; apply Ha; eapply nth_error_In; exact H).
      destruct (String.eqb_spec a name) as [->|_]; [easy|]. now rewrite (IH _ _ N' H). }
  assert (Hnone : forall l name, ~ In name l -> index_of name l = None).
  { intros l name. induction l as [|a l IH]; intro H; [reflexivity|]. cbn. destruct (String.eqb_spec a name) as [->|_].
    - exfalso. apply H. now left.
    - rewrite IH; [reflexivity|]. intro K. apply H. now right. }
  assert (Hsplit : forall (a b : list string), NoDup (a ++ b) -> NoDup a /\ NoDup b /\ forall x, In x a -> In x b -> False).
  { intros a b. induction a as [|x a IH]; intro N; [repeat split; [constructor|exact N|easy]|].
    inversion N as [|? ? Hx N']; subst. destruct (IH N') as (A & B & C). repeat split; [|exact B|].
    - constructor; [|exact A]. intro K. apply Hx. apply in_app_iff. now left.
    - intros y [->|Hy] Hb; [apply Hx; apply in_app_iff; now right|now apply (C y)]. }
  destruct (Hsplit _ _ ND') as (Ni & N2 & Hi). destruct (Hsplit _ _ N2) as (Nc & No & Hc).
  assert (Kne : forall name, In name (v_inputs v ++ v_controls v ++ output_names m) -> String.eqb name (v_key v) = false).
  { intros name H. destruct (String.eqb_spec name (v_key v)) as [->|_]; [easy|reflexivity]. }
  unfold saved_value. split; [now rewrite String.eqb_refl|]. split; [|split].
  - intros i name x H1 H2. rewrite Kne by (apply in_app_iff; left; eapply nth_error_In; exact H1).
    rewrite (Hindex _ _ _ Ni H1). unfold rd. now rewrite H2.
  - intros i name x H1 H2. assert (HI : In name (v_controls v)) by (eapply nth_error_In; exact H1).
    rewrite Kne by (apply in_app_iff; right; apply in_app_iff; now left).
    rewrite Hnone by (intro K; apply (Hi name K); apply in_app_iff; now left).
    rewrite (Hindex _ _ _ Nc H1). unfold rd. now rewrite H2.
  - intros o x H. assert (HI : In (quantity_name o) (output_names m))
      by (apply (proj1 (proj2 (proj2 (C120_published_names k w m P)))); now exists o).
    rewrite Kne by (apply in_app_iff; right; apply in_app_iff; now right).
    rewrite Hnone by (intro K; apply (Hi _ K); apply in_app_iff; now right).
    rewrite Hnone by (intro K; now apply (Hc _ K)). now rewrite H.
Qed.

(** ** Python *)
Fixpoint has_nul (t : string) : bool :=
  match t with EmptyString => false | String a t' => Ascii.eqb a (ascii_of_nat 0) || has_nul t' end.
Lemma has_nul_text t : has_nul t = false -> S_Buffers.text_only t.
Proof.
  unfold S_Buffers.text_only. induction t as [|a t IH]; intros H HI; [easy|]. cbn in H. apply orb_false_iff in H as [H1 H2].
  destruct HI as [HI|HI]; [|now apply IH].
  apply Ascii.eqb_neq in H1. now apply H1.
Qed.
Definition fits (t : string) : bool :=
  negb (has_nul t) && Nat.leb (String.length t) 54 && negb (String.eqb t "laptime") && negb (String.eqb (substring 0 20 t) "integral_quantities.").
Lemma fits_channel t : fits t = true -> S_Python.channel_name t.
Proof.
  unfold fits. rewrite !andb_true_iff, !negb_true_iff. intros [[[H1 H2] H3] H4]. split; [now apply has_nul_text|].
  split; [apply Nat.leb_le in H2; lia|]. split; [now apply String.eqb_neq|].
  intros q ->. apply String.eqb_neq in H4. apply H4. cbn. destruct q; reflexivity.
Qed.

(** All the names fit in the buffers of Python, which returns them all. *)
Theorem C120_python_names k w m ql qu ul uu v : Permutation (outputs_map (names_of k) w) m ->
  v = f1_info (output_names m) ql qu ul uu \/ v = kart_info (output_names m) ql qu ul uu ->
  Forall S_Python.channel_name (S_Python.channel_names v) /\
  M_Python.py_get_names v = Some (v_key v :: v_inputs v ++ v_controls v ++ output_names m).
Proof.
  intros P Hv.
  assert (F : Forall S_Python.channel_name (S_Python.channel_names v)).
  { rewrite Forall_forall. intros name H. apply fits_channel.
    assert (Eo : v_outputs v = output_names m) by (destruct Hv as [->| ->]; reflexivity).
    unfold S_Python.channel_names in H. rewrite Eo in H.
    assert (H' : In name (v_key v :: v_inputs v ++ v_controls v ++ map quantity_name quantities)).
    { destruct H as [H|H]; [now left|]. right. rewrite !in_app_iff in *. destruct H as [H|[H|H]]; try tauto. right. right.
      apply (proj1 (proj2 (proj2 (C120_published_names k w m P)))) in H as [q ->]. apply in_map, quantities_all. }
    assert (A : forallb fits (v_key v :: v_inputs v ++ v_controls v ++ map quantity_name quantities) = true)
      by (destruct Hv as [->| ->]; vm_compute; reflexivity).
    rewrite forallb_forall in A. now apply A. }
  split; [exact F|]. rewrite (P_Python.py_names v F). unfold S_Python.channel_names.
  destruct Hv as [->| ->]; reflexivity.
Qed.

(** ** A concrete car *)
Definition tyre0 (x : R) : tyre :=
  Tyre (V x 0 0) (M3 (V 1 0 0) (V 0 1 0) (V 0 0 1)) (M3 (V 0 1 0) (V (-1) 0 0) (V 0 0 1)) 1 (MkTire 3 0 (V 2 0 0) 0 0 (V 5 7 9) (V 0 0 0)).
Definition car0 : vehicle :=
  Vehicle (Body 1 0 1 (V 3 0 0) (V 0 0 0) 0 (V 0 0 0) 1 0 0 2 0 (MkAero 1 1 1 1 0 0) (M3 (V 1 0 0) (V 0 1 0) (V 0 0 1)) (V 1 0 0))
    (tyre0 1) (tyre0 2) (tyre0 3) (tyre0 4).
Example C120_concrete :
  Permutation (outputs_map (names_of Database3) car0) (rev (outputs_map (names_of Database3) car0)) /\
  get_output (rev (outputs_map (names_of Database3) car0)) "rear-axle.left-tire.position.x" = Ok 3%R /\
  get_output (outputs_map (names_of Default6) car0) "chassis.attitude.yaw" = Ok (1 + 2)%R /\
  get_output (outputs_map (names_of Default6) car0) "chassis.attitude" = Throw /\
  f1_input_names = v_inputs (f1_info [] [] [] [] []) /\ f1_control_names = v_controls (f1_info [] [] [] [] []).
Proof.
  split; [apply Permutation_rev|]. split; [|split; [|split]].
  - exact (C120_each_output_under_its_name Database3 car0 _ (Permutation_rev _) (OfTyre RearLeft (Where X))).
  - exact (C120_each_output_under_its_name Default6 car0 _ (Permutation_refl _) (OfBody Yaw)).
  - apply (C120_other_names_throw Default6 car0); [apply Permutation_refl|]. intros q E.
    assert (H : In "chassis.attitude" (map quantity_name quantities)) by (rewrite E; apply in_map, quantities_all).
    assert (K : existsb (String.eqb "chassis.attitude") (map quantity_name quantities) = true)
      by (apply existsb_exists; exists "chassis.attitude"; split; [exact H|reflexivity]).
    vm_compute in K. discriminate K.
  - split; reflexivity.
Qed.

Print Assumptions C120_each_output_under_its_name.
Print Assumptions C120_other_names_throw.
Print Assumptions C120_published_names.
Print Assumptions C120_no_two_quantities_share_a_name.
Print Assumptions C120_f1_inputs_under_their_names.
Print Assumptions C120_kart_inputs_under_their_names.
Print Assumptions C120_names_never_collide.
Print Assumptions C120_saved_under_its_name.
Print Assumptions C120_python_names.
