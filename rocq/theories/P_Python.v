(** C108: names returned by optimal_laptime of the Python module. C109: values stored and downloaded from Python. *)
From stdpp Require Import base strings gmap list.
From Coq Require Import ZArith Ascii Lia.
From Verif Require Import M_Regex M_Store S_Regex S_Store M_Buffers S_Buffers L_Store L_StoreOut L_StoreThm L_Buffers M_Python S_Python P_Store.
From Verif Require M_Controls M_Options P_Options.

Lemma c_int_small n : (0 <= n < 2 ^ 31)%Z -> c_int n = n.
Proof. intro H. unfold c_int. rewrite Z.mod_small by lia. lia. Qed.

Lemma c_value_chars l b : ~ In nul l -> c_value (l ++ [nul] ++ b) = string_of_list_ascii l.
Proof.
  induction l as [|a l IH]; intro H; [reflexivity|]. simpl.
  destruct (Ascii.eqb_spec a nul) as [->|E]; [exfalso; apply H; now left|]. f_equal. apply IH. intro; apply H; now right.
Qed.

Lemma c_value_text t before b : text_only t -> holds_text t before b -> c_value b = t.
Proof. intros H ->. rewrite c_value_chars by exact H. apply string_of_list_ascii_of_string. Qed.

Section Theorems.
Context {K F T N : Type}.
Context (e : env K F T N) (zero : N).
Implicit Types s : store K F T N.

Lemma type_texts s n t : variable_type s n = Ret (VStr t) -> text_only t.
Proof.
  unfold variable_type, text_only. repeat case_match; intro X; simplify_eq; intro Y; vm_compute in Y; intuition discriminate.
Qed.

Lemma py_type s n t : variable_type s n = Ret (VStr t) -> py_variable_type s n = Some t.
Proof.
  intro H. unfold py_variable_type.
  assert (L : 10 <= length (blanks 99)) by (vm_compute; lia).
  pose proof (variable_type_buffer s (blanks 99) 99%Z n L) as B.
  destruct (variable_type_into s (blanks 99) 99%Z n) as [b|b|] eqn:E.
  - destruct B as (t' & Ht & Hb). rewrite H in Ht. injection Ht as <-.
    now rewrite (c_value_text t (blanks 99) b (type_texts s n t H) Hb).
  - destruct B as [_ B]. congruence.
  - destruct B.
Qed.

Lemma py_vector s n l : t_vector s !! n = Some l -> (Z.of_nat (length l) < 2 ^ 31)%Z -> py_download_vector zero s n = Some l.
Proof.
  intros H L. unfold py_download_vector, download_vector_size. rewrite H. simpl.
  rewrite c_int_small by lia. rewrite c_int_small by lia.
  destruct (Z.ltb_spec (Z.of_nat (length l)) 0) as [?|_]; [lia|].
  unfold download_vector_into. rewrite H, Nat2Z.id.
  rewrite size_of_int_small by lia. rewrite Z.eqb_refl.
  rewrite write_all_ok by (rewrite repeat_length; lia). simpl. f_equal.
  rewrite take_app_alt by reflexivity. reflexivity.
Qed.

Lemma holds_type_vector s n l : one_kind s -> holds s n (VarVector l) -> variable_type s n = Ret (VStr "vector").
Proof.
  intros H1 H. destruct (variable_type_agrees e s n H1) as (_ & V & _). apply V.
  exists (length l). unfold download_vector_size. simpl in H. now rewrite H.
Qed.

Lemma holds_type_scalar s n x : one_kind s -> holds s n (VarScalar x) -> variable_type s n = Ret (VStr "scalar").
Proof.
  intros H1 H. destruct (variable_type_agrees e s n H1) as (V & _). apply V.
  exists x. unfold download_scalar. simpl in H. now rewrite H.
Qed.

Lemma py_variable_vector s n l : one_kind s -> holds s n (VarVector l) -> (Z.of_nat (length l) < 2 ^ 31)%Z ->
  py_download_variable zero s n = Some (PyList l).
Proof.
  intros H1 H L. unfold py_download_variable. rewrite (py_type s n "vector") by now apply (holds_type_vector s n l).
  simpl. now rewrite (py_vector s n l H L).
Qed.

Lemma py_names v : Forall channel_name (channel_names v) -> py_get_names v = Some (channel_names v).
Proof.
  intro H. unfold py_get_names. change (M_Options.v_key v :: _) with (channel_names v). set (ns := channel_names v) in *. clearbody ns.
  rewrite c_int_small by lia. cut (forall bufs, length bufs = length ns -> Forall (fun b => b = blanks 99) bufs ->
    exists bs, get_names 99 ns bufs = Done bs /\ map c_value bs = ns).
  { intro X. destruct (X (repeat (blanks 99) (length ns))) as (bs & -> & ->); [apply repeat_length|apply Forall_forall; intros x Hx|reflexivity].
    apply elem_of_list_In, repeat_spec in Hx. exact Hx. }
  induction ns as [|t ns IH]; intros bufs L HB.
  - destruct bufs; [|discriminate]. now exists [].
  - destruct bufs as [|b bufs]; [discriminate|]. apply Forall_cons in H as [(Ht & Hlen & _) H]. apply Forall_cons in HB as [-> HB].
    destruct (IH H bufs) as (bs & E & M); [simpl in L; lia|exact HB|].
    cbn [get_names]. rewrite size_minus_one_pos by lia.
    destruct (Z.ltb_spec (99 - 1) (Z.of_nat (String.length t))) as [?|_]; [lia|].
    destruct (strcpy_text (blanks 99) t Ht) as (b' & -> & Hb'); [change (length (blanks 99)) with 100; lia|].
    rewrite E. exists (b' :: bs). split; [reflexivity|]. simpl. rewrite M. f_equal. now apply (c_value_text t (blanks 99) b').
Qed.

(** ** C108 *)
Context (kart f1 : M_Options.vehicle_info) (rds : M_Options.readers) (strip : string -> string)
  (parse : string -> option M_Options.xml) (tables : string -> option (list QArith_base.Q))
  (solve : M_Options.config -> laptime_run N) (r0 : laptime_run N).

Lemma class_names s s' vehicle track r : one_kind s -> plain_outputs (K:=K) (F:=F) (T:=T) (OptimalLaptime vehicle track r) ->
  is_vehicle s vehicle -> step e s (OptimalLaptime vehicle track r) = (s', Ret VUnit) ->
  Forall channel_name (channel_names kart) -> Forall channel_name (channel_names f1) ->
  py_names_of kart f1 s' vehicle = Some (channel_names (class_of kart f1 s vehicle)).
Proof.
  intros H1 HP HV HS HK HF.
  assert (H1' : one_kind s') by (eapply step_one_kind; eauto; exact I).
  destruct (variable_type_agrees e s' vehicle H1') as (_ & _ & _ & VF & VK & _).
  assert (X : (has (t_kart s) vehicle = true /\ exists k, holds s' vehicle (VarKart k)) \/
              (has (t_kart s) vehicle = false /\ exists k, holds s' vehicle (VarF1 k))).
  { simpl in HS. unfold optimal_laptime in HS. unfold has. destruct (t_kart s !! vehicle) as [k|] eqn:Ek.
    - left. split; [reflexivity|].
      destruct (t_track s !! track) as [t|]; [|discriminate]. destruct (negb (lr_options r)); [discriminate|].
      destruct (e_kart_track e k t) as [k' b]. destruct (b && lr_computed r); [|discriminate].
      apply store_laptime_ext in HS. destruct HS as (S1 & _). exists k'. simpl. rewrite S1. simpl. now rewrite lookup_insert.
    - right. split; [reflexivity|]. destruct HV as [[k Hk]|[c Hc]]; simpl in *; [congruence|]. rewrite Hc in HS.
      destruct (t_track s !! track) as [t|]; [|discriminate]. destruct (negb (lr_options r)); [discriminate|].
      destruct (e_f1_track e c t) as [k' b]. destruct (b && lr_computed r); [|discriminate].
      apply store_laptime_ext in HS. destruct HS as (_ & S1 & _). exists k'. rewrite S1. simpl. now rewrite lookup_insert. }
  unfold py_names_of, class_of. destruct X as [[-> X]|[-> X]].
  - rewrite (py_type s' vehicle "kart-6dof") by now apply VK. simpl. now apply py_names.
  - rewrite (py_type s' vehicle "f1-3dof") by now apply VF. simpl. now apply py_names.
Qed.

Lemma returned_all s vehicle options doc prefix : parse options = Some doc -> all_channels doc prefix ->
  py_returned kart f1 strip parse s vehicle options =
  match py_names_of kart f1 s vehicle with Some vs => Some (strip prefix, vs) | None => None end.
Proof.
  intros HP (ov & p & Hr & Ho & Hp & Hv & Hne & Hn). unfold py_returned. rewrite HP, Ho, Hp, Hn. unfold py_text. rewrite Hv.
  destruct (String.eqb_spec prefix "") as [?|_]; [contradiction|]. now destruct (py_names_of kart f1 s vehicle).
Qed.

Lemma configuration_all v options doc prefix c : parse options = Some doc -> options <> "" -> all_channels doc prefix ->
  M_Options.configuration rds v tables parse options = M_Controls.Ok c ->
  M_Options.o_prefix c = M_Options.r_trim rds prefix /\
  forall n, n ∈ channel_names v \/ n = "laptime" -> n ∈ M_Options.o_save c.
Proof.
  intros HP Hopt (ov & p & Hr & Ho & Hp & Hv & Hne & Hn) H. unfold M_Options.configuration in H.
  destruct (String.eqb_spec options "") as [?|_]; [contradiction|]. rewrite HP in H. simpl in H.
  apply P_Options.C62_output_variables in H. unfold M_Options.element in H. rewrite Hr in H. simpl in H.
  rewrite Ho in H. simpl in H. rewrite Hp, Hn in H. destruct H as [(p' & Hp' & Hpre) H].
  injection Hp' as <-. split; [now rewrite Hpre, Hv|].
  intros n Hin. apply elem_of_list_In, H. unfold channel_names in Hin.
  rewrite elem_of_cons, !elem_of_app, !elem_of_list_In in Hin. tauto.
Qed.

Lemma download_all s p vs r : one_kind s -> Forall channel_name vs ->
  (forall v, v ∈ vs -> exists l, lr_vector r v = Some l /\ holds s (p +:+ v) (VarVector l)) ->
  (forall v l, lr_vector r v = Some l -> (Z.of_nat (length l) < 2 ^ 31)%Z) ->
  exists d, py_download_variables zero s p vs = Some d /\ dictionary_of r vs d.
Proof.
  intros H1 HN HV HL. unfold dictionary_of. induction vs as [|v vs IH].
  - exists []. split; [reflexivity|]. split; [reflexivity|]. intros v x Hx. now apply elem_of_nil in Hx.
  - apply Forall_cons in HN as [Hv HN]. destruct (HV v) as (l & Hl & Hh); [left|].
    destruct IH as (d & Hd & Hm & Hx); [exact HN|intros w Hw; apply HV; now right|].
    exists ((v, PyList l) :: d). simpl. rewrite (py_variable_vector s (p +:+ v) l H1 Hh) by (eapply HL; eauto). rewrite Hd.
    split; [reflexivity|]. split; [simpl; now rewrite Hm|]. intros w x Hin. apply elem_of_cons in Hin as [E|Hin].
    + injection E as -> ->. eauto.
    + eauto.
Qed.

(** When the options do not list the variables to save: if the library computes the lap, the Python call returns
    the prefix and the names of the key, states, controls and outputs, and download_variables with them gives the vectors of
    the lap. *)
Theorem C108_lap_downloaded_partial : forall s s' vehicle track options doc prefix c, let v := class_of kart f1 s vehicle in
  one_kind s -> is_vehicle s vehicle ->
  Forall channel_name (channel_names kart) -> Forall channel_name (channel_names f1) ->
  (forall w l, lr_vector (solve c) w = Some l -> no_slash w /\ (Z.of_nat (length l) < 2 ^ 31)%Z) ->
  parse options = Some doc -> options <> "" -> all_channels doc prefix -> strip prefix = M_Options.r_trim rds prefix ->
  M_Options.configuration rds v tables parse options = M_Controls.Ok c ->
  step e s (OptimalLaptime vehicle track (run_of kart f1 rds parse tables solve s vehicle options r0)) = (s', Ret VUnit) ->
  py_optimal_laptime e kart f1 rds strip parse tables solve r0 s vehicle track options =
    Some (M_Options.r_trim rds prefix, channel_names v, s') /\
  exists d, py_download_variables zero s' (M_Options.r_trim rds prefix) (channel_names v) = Some d /\
    dictionary_of (solve c) (channel_names v) d.
Proof.
  intros s s' vehicle track options doc prefix c v H1 HV HK HF HN HP Hopt HA Hstrip HC HS.
  set (r := run_of kart f1 rds parse tables solve s vehicle options r0) in *.
  assert (Er : r = LaptimeRun true (lr_computed (solve c)) (M_Options.o_prefix c) (M_Options.o_save c) (M_Options.o_sensitivity c)
     (lr_aliases (solve c)) (lr_laptime (solve c)) (lr_dlaptime (solve c)) (lr_integral (solve c)) (lr_vector (solve c)) (lr_dvector (solve c))).
  { unfold r, run_of. fold v. now rewrite HC. }
  assert (HPO : plain_outputs (K:=K) (F:=F) (T:=T) (OptimalLaptime vehicle track r)).
  { simpl. rewrite Er. simpl. intros w l Hw. now apply (HN w l). }
  destruct (configuration_all v options doc prefix c HP Hopt HA HC) as [Hpre Hsave].
  pose proof (class_names s s' vehicle track r H1 HPO HV HS HK HF) as Hnames. fold v in Hnames.
  split.
  - unfold py_optimal_laptime. fold r. rewrite HS. rewrite (returned_all s' vehicle options doc prefix HP HA), Hnames. now rewrite Hstrip.
  - assert (Hall : Forall channel_name (channel_names v)) by (unfold v, class_of; now destruct (has (t_kart s) vehicle)).
    apply download_all.
    + eapply step_one_kind; [| | |exact HS]; [exact HPO|exact I|exact H1].
    + exact Hall.
    + intros w Hw. destruct (laptime_success e s vehicle track r s') as [X _]; [exact HPO|exact HV|exact HS|].
      assert (Hin : w ∈ lr_variables r) by (rewrite Er; simpl; apply Hsave; now left).
      rewrite Forall_forall in Hall. destruct (Hall w Hw) as (_ & _ & N1 & N2).
      destruct (X w Hin) as (_ & _ & Y). destruct (Y N1 N2) as (l & Hl & Hh). rewrite Er in Hl, Hh. simpl in Hl, Hh.
      exists l. rewrite <- Hpre. split; assumption.
    + intros w l Hw. now apply (HN w l).
Qed.

(** Not in the list: the laptime, although it is stored. *)
Theorem C108_laptime_missing_refuted : forall s s' vehicle track options doc prefix c p vs,
  let v := class_of kart f1 s vehicle in
  one_kind s -> is_vehicle s vehicle ->
  Forall channel_name (channel_names kart) -> Forall channel_name (channel_names f1) ->
  (forall w l, lr_vector (solve c) w = Some l -> no_slash w /\ (Z.of_nat (length l) < 2 ^ 31)%Z) ->
  parse options = Some doc -> options <> "" -> all_channels doc prefix -> strip prefix = M_Options.r_trim rds prefix ->
  M_Options.configuration rds v tables parse options = M_Controls.Ok c ->
  step e s (OptimalLaptime vehicle track (run_of kart f1 rds parse tables solve s vehicle options r0)) = (s', Ret VUnit) ->
  py_optimal_laptime e kart f1 rds strip parse tables solve r0 s vehicle track options = Some (p, vs, s') ->
  holds s' (p +:+ "laptime") (VarScalar (lr_laptime (solve c))) /\ ~ "laptime" ∈ vs.
Proof.
  intros s s' vehicle track options doc prefix c p vs v H1 HV HK HF HN HP Hopt HA Hstrip HC HS HPy.
  destruct (C108_lap_downloaded_partial s s' vehicle track options doc prefix c H1 HV HK HF HN HP Hopt HA Hstrip HC HS) as [X _].
  fold v in X. rewrite X in HPy. injection HPy as <- <-.
  destruct (configuration_all v options doc prefix c HP Hopt HA HC) as [Hpre Hsave].
  set (r := run_of kart f1 rds parse tables solve s vehicle options r0) in *.
  assert (Er : r = LaptimeRun true (lr_computed (solve c)) (M_Options.o_prefix c) (M_Options.o_save c) (M_Options.o_sensitivity c)
     (lr_aliases (solve c)) (lr_laptime (solve c)) (lr_dlaptime (solve c)) (lr_integral (solve c)) (lr_vector (solve c)) (lr_dvector (solve c))).
  { unfold r, run_of. fold v. now rewrite HC. }
  split.
  - destruct (laptime_success e s vehicle track r s') as [Y _].
    + rewrite Er. simpl. intros w l Hw. now apply (HN w l).
    + exact HV.
    + exact HS.
    + destruct (Y "laptime") as (Z & _); [rewrite Er; simpl; apply Hsave; now right|].
      rewrite Er in Z. simpl in Z. rewrite <- Hpre. now apply Z.
  - intro Hin. assert (Hall : Forall channel_name (channel_names v)) by (unfold v, class_of; now destruct (has (t_kart s) vehicle)).
    rewrite Forall_forall in Hall. now destruct (Hall _ Hin) as (_ & _ & N1 & _).
Qed.

(** When the options list the variables, they are never returned. *)
Theorem C108_listed_variables_refuted : forall s vehicle track options doc ov ve p vs s',
  parse options = Some doc -> M_Options.child doc "output_variables" = Some ov ->
  M_Options.child ov "variables" = Some ve ->
  py_optimal_laptime e kart f1 rds strip parse tables solve r0 s vehicle track options = Some (p, vs, s') ->
  vs = [] /\ M_Options.x_children ve <> [].
Proof.
  intros s vehicle track options doc ov ve p vs s' HP Ho Hv H. unfold py_optimal_laptime in H.
  destruct (step e s _) as [s1 [x| | |]]; try discriminate.
  unfold py_returned in H. rewrite HP, Ho, Hv in H.
  destruct (M_Options.x_children ve) as [|f fs]; [discriminate|]. destruct (M_Options.x_children f); [|discriminate].
  destruct (match M_Options.child ov "prefix" with Some _ => _ | None => _ end); [|discriminate].
  now injection H as _ <- _.
Qed.

(** Options without output variables, which the library accepts, make the Python call fail. *)
Theorem C108_no_output_variables_refuted : forall s vehicle track options doc,
  parse options = Some doc -> M_Options.child doc "output_variables" = None ->
  py_optimal_laptime e kart f1 rds strip parse tables solve r0 s vehicle track options = None.
Proof.
  intros s vehicle track options doc HP Ho. unfold py_optimal_laptime.
  destruct (step e s _) as [s1 [x| | |]]; try reflexivity. unfold py_returned. now rewrite HP, Ho.
Qed.

(** ** C109 *)

(** A list stored from Python is downloaded unchanged, after any other calls that do not concern it, and its type is "vector". *)
Theorem C109_vector_round_trip : forall s name data s1 cs s2 rs, one_kind s -> (Z.of_nat (length data) < 2 ^ 31)%Z ->
  Forall plain_outputs cs -> Forall not_preprocessor cs -> Forall (fun c => unrelated c name) cs ->
  py_create_vector e s name data = Some s1 -> run e s1 cs = (s2, rs) ->
  py_variable_type s2 name = Some "vector" /\ py_download_vector zero s2 name = Some data /\
  py_download_variables zero s2 "" [name] = Some [(name, PyList data)].
Proof.
  intros s name data s1 cs s2 rs H1 HL HP HNP HU HC HR.
  unfold py_create_vector in HC. rewrite c_int_small in HC by lia.
  destruct (step e s (CreateVector name (Z.of_nat (length data)) data)) as [s1' res] eqn:Es.
  destruct res; [|discriminate..]. injection HC as ->.
  assert (H1' : one_kind s1) by (eapply step_one_kind; [| | |exact Es]; [exact I|exact I|exact H1]).
  assert (Hh : holds s1 name (VarVector data)).
  { simpl in Es. unfold create_vector in Es. destruct (exists_in_tables s name) eqn:Ex; [discriminate|].
    rewrite Z.ltb_irrefl, orb_false_r in Es. destruct (Z.ltb_spec (Z.of_nat (length data)) 0) as [?|_]; [lia|].
    injection Es as <- _. simpl. apply exists_false in Ex as (_ & _ & _ & _ & Ev). unfold insert_new. rewrite Ev, lookup_insert.
    now rewrite Nat2Z.id, take_ge by lia. }
  assert (H2 : one_kind s2) by (eapply run_one_kind; eauto).
  assert (Hh2 : holds s2 name (VarVector data)) by (eapply run_frame; eauto).
  split; [apply py_type; now apply (holds_type_vector s2 name data)|].
  split; [now apply py_vector|]. simpl. change ("" +:+ name) with name. now rewrite (py_variable_vector s2 name data H2 Hh2 HL).
Qed.

(** The same for a number. *)
Theorem C109_scalar_round_trip : forall s name x s1 cs s2 rs, one_kind s ->
  Forall plain_outputs cs -> Forall not_preprocessor cs -> Forall (fun c => unrelated c name) cs ->
  py_create_scalar e s name x = Some s1 -> run e s1 cs = (s2, rs) ->
  py_variable_type s2 name = Some "scalar" /\ py_download_scalar s2 name = Some x /\
  py_download_variables zero s2 "" [name] = Some [(name, PyNum x)].
Proof.
  intros s name x s1 cs s2 rs H1 HP HNP HU HC HR.
  unfold py_create_scalar in HC. destruct (step e s (CreateScalar name x)) as [s1' res] eqn:Es.
  destruct res; [|discriminate..]. injection HC as ->.
  assert (H1' : one_kind s1) by (eapply step_one_kind; [| | |exact Es]; [exact I|exact I|exact H1]).
  assert (Hh : holds s1 name (VarScalar x)).
  { simpl in Es. unfold create_scalar in Es. destruct (exists_in_tables s name) eqn:Ex; [discriminate|].
    injection Es as <- _. simpl. apply exists_false in Ex as (_ & _ & _ & Ev & _). unfold insert_new. now rewrite Ev, lookup_insert. }
  assert (H2 : one_kind s2) by (eapply run_one_kind; eauto).
  assert (Hh2 : holds s2 name (VarScalar x)) by (eapply run_frame; eauto).
  assert (HD : py_download_scalar s2 name = Some x) by (unfold py_download_scalar, download_scalar; simpl in Hh2; now rewrite Hh2).
  split; [apply py_type; now apply (holds_type_scalar s2 name x)|]. split; [exact HD|].
  simpl. change ("" +:+ name) with name. unfold py_download_variable.
  rewrite (py_type s2 name "scalar") by now apply (holds_type_scalar s2 name x). simpl. now rewrite HD.
Qed.

(** Creation fails exactly when the name is taken. *)
Theorem C109_create_fails_iff : forall s name data x, (Z.of_nat (length data) < 2 ^ 31)%Z ->
  (py_create_vector e s name data = None <-> taken s name) /\ (py_create_scalar e s name x = None <-> taken s name).
Proof.
  intros s name data x HL. rewrite <- !exists_taken. unfold py_create_vector, py_create_scalar. rewrite c_int_small by lia. simpl.
  unfold create_vector, create_scalar. rewrite Z.ltb_irrefl, orb_false_r.
  destruct (Z.ltb_spec (Z.of_nat (length data)) 0) as [?|_]; [lia|].
  destruct (exists_in_tables s name); split; split; congruence.
Qed.

End Theorems.

(** ** Cases *)

Definition channel_ok (t : string) : bool :=
  negb (existsb (Ascii.eqb nul) (list_ascii_of_string t)) && Nat.leb (String.length t) 98 &&
  negb (String.eqb t "laptime") && negb (is_integral t).

Lemma channel_ok_spec t : channel_ok t = true -> channel_name t.
Proof.
  unfold channel_ok. rewrite !andb_true_iff, !negb_true_iff. intros [[[H1 H2] H3] H4]. repeat split.
  - intro H. apply not_true_iff_false in H1. apply H1, existsb_exists. exists nul. split; [exact H|apply Ascii.eqb_refl].
  - now apply Nat.leb_le.
  - intros ->. discriminate.
  - intros q E. apply not_true_iff_false in H4. apply H4, is_integral_spec. eauto.
Qed.

Definition ex_class : M_Options.vehicle_info := M_Options.f1_info ["chassis.understeer"; "total_mass"] [] [] [] [].
Definition ex_solve (c : M_Options.config) : laptime_run nat :=
  LaptimeRun true true "" [] false [] 80 (fun i => i) (fun q => Some 5)
    (fun v => if existsb (String.eqb v) (channel_names ex_class) then Some [String.length v; 2; 3] else None) (fun v i => []).
Definition leaf (n t : string) : M_Options.xml := M_Options.Elem n [] t [].
Definition ex_doc (inside : list M_Options.xml) : M_Options.xml :=
  M_Options.Elem "options" [] "" [leaf "warm_start" "false"; M_Options.Elem "output_variables" [] "" inside].
Definition ex_py (doc : M_Options.xml) :=
  py_optimal_laptime env0 ex_class ex_class P_Options.ex_readers (fun t => t) (fun _ => Some doc) P_Options.ex_table ex_solve (run0 [])
    store0 "car" "catalunya" "...".

Example C108_case : Forall channel_name (channel_names ex_class) /\ is_vehicle store0 "car" /\ one_kind store0 /\
  all_channels (ex_doc [leaf "prefix" "run/"]) "run/" /\
  (forall c w l, lr_vector (ex_solve c) w = Some l -> no_slash w /\ (Z.of_nat (length l) < 2 ^ 31)%Z) /\
  length (channel_names ex_class) = 21 /\
  match ex_py (ex_doc [leaf "prefix" "run/"]) with
  | Some (p, vs, s') => p = "run/" /\ vs = channel_names ex_class /\
      match py_download_variables 0 s' p vs with
      | Some d => length d = 21 /\ d !! 12 = Some ("time", PyList [4; 2; 3])
      | None => False
      end
  | None => False
  end.
Proof.
  split; [|split; [|split; [|split; [|split; [|split]]]]].
  - assert (H : forallb channel_ok (channel_names ex_class) = true) by (vm_compute; reflexivity).
    rewrite forallb_forall in H. apply Forall_forall. intros t Ht. apply channel_ok_spec, H. now apply elem_of_list_In.
  - right. exists 7. vm_compute. reflexivity.
  - eapply (run_one_kind env0 prelude0 empty0); [| |apply empty_one_kind|apply surjective_pairing].
    + repeat constructor.
    + repeat constructor.
  - exists (M_Options.Elem "output_variables" [] "" [leaf "prefix" "run/"]), (leaf "prefix" "run/").
    split; [reflexivity|]. split; [reflexivity|]. split; [reflexivity|]. split; [reflexivity|]. split; [discriminate|reflexivity].
  - intros c w l. unfold ex_solve. cbn [lr_vector]. destruct (existsb (String.eqb w) (channel_names ex_class)) eqn:E; [|discriminate]. intros [= <-]. split; [|simpl; lia].
    apply existsb_exists in E as (x & Hx & E). apply String.eqb_eq in E. subst x.
    assert (H : forallb (fun t => negb (existsb (Ascii.eqb "/"%char) (list_ascii_of_string t))) (channel_names ex_class) = true) by (vm_compute; reflexivity).
    rewrite forallb_forall in H. specialize (H w Hx). apply negb_true_iff, not_true_iff_false in H. intro Hin. apply H, existsb_exists.
    exists "/"%char. split; [exact Hin|reflexivity].
  - reflexivity.
  - vm_compute. auto.
Qed.

Example C108_listed_case :
  match ex_py (ex_doc [leaf "prefix" "run/"; M_Options.Elem "variables" [] "" [leaf "time" ""; leaf "chassis.velocity.x" ""]]) with
  | Some (p, vs, s') => p = "run/" /\ vs = [] /\ holds s' "run/time" (VarVector [4; 2; 3])
  | None => False
  end.
Proof. vm_compute. auto. Qed.

Example C108_no_output_case :
  (step env0 store0 (OptimalLaptime "car" "catalunya"
    (run_of ex_class ex_class P_Options.ex_readers (fun _ => Some (leaf "options" "")) P_Options.ex_table ex_solve store0 "car" "..." (run0 [])))).2
    = Ret VUnit /\ ex_py (leaf "options" "") = None.
Proof. split; vm_compute; reflexivity. Qed.

Example C109_case :
  match py_create_vector env0 store0 "mesh" [10; 20; 30] with
  | Some s1 =>
      py_download_vector 0 (run env0 s1 [DeleteVariable "v"; CreateScalar "y" 4; MoveVariable "x" "z"]).1 "mesh" = Some [10; 20; 30] /\
      py_create_vector env0 s1 "mesh" [] = None
  | None => False
  end.
Proof. vm_compute. auto. Qed.

Print Assumptions C108_lap_downloaded_partial.
Print Assumptions C108_laptime_missing_refuted.
Print Assumptions C108_listed_variables_refuted.
Print Assumptions C108_no_output_variables_refuted.
Print Assumptions C109_vector_round_trip.
Print Assumptions C109_scalar_round_trip.
Print Assumptions C109_create_fails_iff.
