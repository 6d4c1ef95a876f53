(** Lemmas in the form used by the property theorems on the store. *)
From stdpp Require Import base strings gmap list.
From Coq Require Import ZArith Ascii.
From Verif Require Import M_Regex S_Regex L_Regex M_Store S_Store L_Store L_StoreOut.

Section Proofs.
Context {K F T N : Type}.
Implicit Types (s : store K F T N) (n : string).

Lemma exists_taken s n : exists_in_tables s n = true <-> taken s n.
Proof.
  unfold exists_in_tables, has, taken. split.
  - destruct (t_kart s !! n) as [x|] eqn:E1; [intros _; now exists (VarKart x)|].
    destruct (t_f1 s !! n) as [x|] eqn:E2; [intros _; now exists (VarF1 x)|].
    destruct (t_track s !! n) as [x|] eqn:E3; [intros _; now exists (VarTrack x)|].
    destruct (t_scalar s !! n) as [x|] eqn:E4; [intros _; now exists (VarScalar x)|].
    destruct (t_vector s !! n) as [x|] eqn:E5; [intros _; now exists (VarVector x)|].
    discriminate.
  - intros [v Hv]. destruct v; simpl in Hv; rewrite Hv; simpl; rewrite ?orb_true_r; reflexivity.
Qed.

Lemma free_not_taken s n : free s n <-> ~ taken s n.
Proof. unfold free, taken. split; [intros H [v Hv]; exact (H v Hv) | intros H v Hv; apply H; eauto]. Qed.

(** *** C02 *)
Lemma prep_one_kind s (r : prep_run T N) s' res :
  one_kind s ->
  (forall n v, pr_table r = Some n -> holds s n v -> exists t, v = VarTrack t) ->
  (forall p x v, pr_prefix r = Some p -> x ∈ prep_vector_names -> holds s (p +:+ x) v ->
     exists l, v = VarVector l) ->
  (forall p x, pr_prefix r = Some p -> x ∈ prep_vector_names -> pr_table r <> Some (p +:+ x)) ->
  circuit_preprocessor s r = (s', res) -> one_kind s'.
Proof.
  intros HO HT HV HD E. unfold circuit_preprocessor in E.
  destruct (pr_computed r); [|injection E as <- <-; exact HO].
  destruct (prep_track_phase s r) as [s1 ok] eqn:Et.
  assert (A : one_kind s1 /\ (forall p x v, pr_prefix r = Some p -> x ∈ prep_vector_names ->
     holds s1 (p +:+ x) v -> exists l, v = VarVector l)).
  { unfold prep_track_phase in Et. destruct (pr_table r) as [n|] eqn:En.
    2: { injection Et as <- <-. auto. }
    destruct (has (t_track s) n) eqn:Eh; injection Et as <- <-; [auto|].
    assert (Hn : t_track s !! n = None).
    { unfold has in Eh. destruct (t_track s !! n); [discriminate|reflexivity]. }
    rewrite insert_new_fresh by exact Hn. split.
    - apply one_kind_pw in HO as [m Hm]. apply one_kind_pw.
      exists (<[n := VarTrack (pr_track r)]> m).
      apply (proj2 (represents_pw _ _)), rep_set_track; [now apply (proj1 (represents_pw _ _))|].
      destruct (m !! n) as [v|] eqn:Em; [|auto]. right.
      destruct (HT n v eq_refl) as [t ->]; [now apply Hm|eauto].
    - intros p x v Hp Hx Hv. apply (HV p x v Hp Hx). destruct v; simpl in Hv |- *; try exact Hv.
      rewrite lookup_insert_ne in Hv; [exact Hv|]. specialize (HD p x Hp Hx). congruence. }
  destruct A as [HO1 HV1].
  destruct ok; [|injection E as <- <-; exact HO1].
  assert (B : prep_vector_phase s1 r = (s', res) -> one_kind s').
  { unfold prep_vector_phase. destruct (pr_prefix r) as [p|] eqn:Ep; [|intros [= <- <-]; exact HO1].
    destruct (save_prep_vectors _ _ _ _) as [m ok] eqn:Es. intros [= <- <-].
    apply save_prep_ext in Es. intros n v w Hv Hw. destruct (Es n) as [Q|[(x & Hx & ->) Hnone]].
    - apply (HO1 n); [destruct v | destruct w]; simpl in *; congruence.
    - specialize (HV1 p x). destruct v, w; simpl in *;
        try (match goal with H : t_kart s1 !! _ = Some ?k |- _ => destruct (HV1 (VarKart k) eq_refl Hx H); discriminate
          | H : t_f1 s1 !! _ = Some ?k |- _ => destruct (HV1 (VarF1 k) eq_refl Hx H); discriminate
          | H : t_track s1 !! _ = Some ?k |- _ => destruct (HV1 (VarTrack k) eq_refl Hx H); discriminate
          | H : t_scalar s1 !! _ = Some ?k |- _ => destruct (HV1 (VarScalar k) eq_refl Hx H); discriminate
          end); congruence. }
  destruct (pr_xml r) as [[|]|]; [auto|injection E as <- <-; exact HO1|auto].
Qed.

(** *** C04 *)
Lemma creation_failure e s c s' res :
  creates_variable c -> step e s c = (s', res) -> res = Exc -> s' = s.
Proof.
  intros Hc E ->. destruct c; simpl in Hc, E; try contradiction;
    unfold create_vehicle_from_xml, create_vehicle_empty, create_track_from_xml, create_scalar,
      create_vector, copy_variable, move_variable in E; repeat case_match; simplify_eq; reflexivity.
Qed.

Lemma create_scalar_fails e s n x s' res : step e s (CreateScalar n x) = (s', res) ->
  (res = Exc <-> taken s n).
Proof.
  simpl. unfold create_scalar. rewrite <- exists_taken.
  destruct (exists_in_tables s n); intros [= <- <-]; split; congruence.
Qed.
Lemma create_vector_fails e s n len data s' res : (0 <= len <= Z.of_nat (length data))%Z ->
  step e s (CreateVector n len data) = (s', res) -> (res = Exc <-> taken s n).
Proof.
  intro H. simpl. unfold create_vector. rewrite <- exists_taken.
  destruct (exists_in_tables s n); [intros [= <- <-]; split; congruence|].
  destruct (Z.ltb_spec len 0); [lia|]. destruct (Z.ltb_spec (Z.of_nat (length data)) len); [lia|].
  simpl. intros [= <- <-]; split; congruence.
Qed.
Lemma create_vehicle_fails e s n file s' res : step e s (CreateVehicleFromXml n file) = (s', res) ->
  (res = Exc <-> taken s n \/ @loaded_vehicle K F T N file = None).
Proof.
  simpl. unfold create_vehicle_from_xml, loaded_vehicle. rewrite <- exists_taken.
  destruct (exists_in_tables s n) eqn:Ex; [intros [= <- <-]; split; auto|].
  apply exists_false in Ex as (N1 & N2 & _).
  destruct file as [f|]; [|intros [= <- <-]; split; auto].
  destruct (String.eqb (vf_type f) "kart-6dof").
  { destruct (vf_kart f); simpl; [|intros [= <- <-]; split; auto].
    rewrite has_none by exact N1. intros [= <- <-]; split; [discriminate|intros [?|?]; discriminate]. }
  destruct (String.eqb (vf_type f) "f1-3dof"); [|intros [= <- <-]; split; auto].
  destruct (vf_f1 f); simpl; [|intros [= <- <-]; split; auto].
  rewrite has_none by exact N2. intros [= <- <-]; split; [discriminate|intros [?|?]; discriminate].
Qed.
Lemma create_empty_fails e s n ty s' res : step e s (CreateVehicleEmpty n ty) = (s', res) ->
  (res = Exc <-> taken s n \/ ty <> "f1-3dof").
Proof.
  simpl. unfold create_vehicle_empty. rewrite <- exists_taken.
  destruct (exists_in_tables s n) eqn:Ex; [intros [= <- <-]; split; auto|].
  destruct (String.eqb_spec ty "kart-6dof") as [->|].
  { intros [= <- <-]. split; [intros _; right; discriminate|reflexivity]. }
  destruct (String.eqb_spec ty "f1-3dof") as [->|]; intros [= <- <-].
  - split; [discriminate|]. intros [?|?]; [discriminate|congruence].
  - split; auto.
Qed.
Lemma create_track_fails e s n file s' res : step e s (CreateTrackFromXml n file) = (s', res) ->
  (res = Exc <-> taken s n \/ @loaded_track K F T N file = None).
Proof.
  simpl. unfold create_track_from_xml, loaded_track. rewrite <- exists_taken.
  destruct (exists_in_tables s n) eqn:Ex; [intros [= <- <-]; split; auto|].
  destruct file as [f|]; [|intros [= <- <-]; split; auto].
  destruct (String.eqb (tf_format f) "discrete"); [|intros [= <- <-]; split; auto].
  destruct (tf_track f); simpl; intros [= <- <-]; split; auto; try discriminate; intros [?|?]; discriminate.
Qed.
Lemma not_taken_lookup s n : ~ taken s n -> t_kart s !! n = None /\ t_f1 s !! n = None /\
  t_track s !! n = None /\ t_scalar s !! n = None /\ t_vector s !! n = None.
Proof. intro H. apply exists_false, exists_free, free_not_taken, H. Qed.

Lemma copy_fails e s a b s' res : step e s (CopyVariable a b) = (s', res) ->
  (res = Exc <-> taken s b \/ ~ taken s a).
Proof.
  simpl. unfold copy_variable. rewrite <- (exists_taken s b).
  destruct (exists_in_tables s b) eqn:Ex; [intros [= <- <-]; split; auto|].
  assert (T1 : forall (v : var K F T N), holds s a v -> @Ret N VUnit = Exc <-> false = true \/ ~ taken s a).
  { intros v Hv; split; [discriminate|]. intros [?|Hn]; [discriminate|]. exfalso; apply Hn. now exists v. }
  destruct (t_kart s !! a) as [x|] eqn:E1; [intros [= <- <-]; now apply (T1 (VarKart x))|].
  destruct (t_f1 s !! a) as [x|] eqn:E2; [intros [= <- <-]; now apply (T1 (VarF1 x))|].
  destruct (t_track s !! a) as [x|] eqn:E3; [intros [= <- <-]; now apply (T1 (VarTrack x))|].
  destruct (t_vector s !! a) as [x|] eqn:E4; [intros [= <- <-]; now apply (T1 (VarVector x))|].
  destruct (t_scalar s !! a) as [x|] eqn:E5; [intros [= <- <-]; now apply (T1 (VarScalar x))|].
  intros [= <- <-]. split; auto. intros _. right. apply free_not_taken, exists_free, exists_false. auto.
Qed.
Lemma move_fails e s a b s' res : step e s (MoveVariable a b) = (s', res) ->
  (res = Exc <-> taken s b \/ ~ taken s a).
Proof.
  simpl. unfold move_variable. rewrite <- (exists_taken s b).
  destruct (exists_in_tables s b) eqn:Ex; [intros [= <- <-]; split; auto|].
  assert (T1 : forall (v : var K F T N), holds s a v -> @Ret N VUnit = Exc <-> false = true \/ ~ taken s a).
  { intros v Hv; split; [discriminate|]. intros [?|Hn]; [discriminate|]. exfalso; apply Hn. now exists v. }
  destruct (t_kart s !! a) as [x|] eqn:E1; [intros [= <- <-]; now apply (T1 (VarKart x))|].
  destruct (t_f1 s !! a) as [x|] eqn:E2; [intros [= <- <-]; now apply (T1 (VarF1 x))|].
  destruct (t_track s !! a) as [x|] eqn:E3; [intros [= <- <-]; now apply (T1 (VarTrack x))|].
  destruct (t_vector s !! a) as [x|] eqn:E4; [intros [= <- <-]; now apply (T1 (VarVector x))|].
  destruct (t_scalar s !! a) as [x|] eqn:E5; [intros [= <- <-]; now apply (T1 (VarScalar x))|].
  intros [= <- <-]. split; auto. intros _. right. apply free_not_taken, exists_free, exists_false. auto.
Qed.

(** *** C05, C06 *)
Lemma copy_success e s a b s' : one_kind s -> step e s (CopyVariable a b) = (s', Ret VUnit) ->
  free s b /\ taken s a /\ (forall v, holds s' b v <-> holds s a v) /\
  (forall n v, n <> b -> (holds s' n v <-> holds s n v)).
Proof.
  intros HO E. pose proof (copy_fails e s a b s' _ E) as HF.
  assert (Fb : free s b). { apply free_not_taken. intro H. now apply (or_introl (B := ~ taken s a)), HF in H. }
  apply one_kind_pw in HO as [m Hm].
  destruct (step_refines e s m (CopyVariable a b) s' _ Hm I E) as (m' & Hs & Hm').
  simpl in Hs. unfold creates in Hs.
  destruct (m !! b) as [v|] eqn:Eb; [destruct Hs; discriminate|].
  destruct (m !! a) as [v|] eqn:Ea; [|destruct Hs; discriminate]. destruct Hs as [-> _].
  split; [exact Fb|]. split; [exists v; now apply Hm|]. split.
  - intro w. rewrite <- (Hm' b w), <- (Hm a w), lookup_insert, Ea. reflexivity.
  - intros n w Hn. rewrite <- (Hm' n w), <- (Hm n w), lookup_insert_ne by congruence. reflexivity.
Qed.

Lemma copy_independent e s a b s' cs s'' rs :
  one_kind s -> step e s (CopyVariable a b) = (s', Ret VUnit) -> run e s' cs = (s'', rs) ->
  (Forall (fun c => unrelated c b) cs -> forall v, holds s'' b v <-> holds s a v) /\
  (Forall (fun c => unrelated c a) cs -> forall v, holds s'' a v <-> holds s a v).
Proof.
  intros HO E R. destruct (copy_success e s a b s' HO E) as (Fb & [w Ta] & H1 & H2). split; intros HF v.
  - rewrite (run_frame e cs b s' s'' rs HF R). apply H1.
  - rewrite (run_frame e cs a s' s'' rs HF R). apply H2. intros ->. exact (Fb w Ta).
Qed.

Lemma move_success e s a b s' : one_kind s -> step e s (MoveVariable a b) = (s', Ret VUnit) ->
  (forall v, holds s' b v <-> holds s a v) /\ free s' a /\
  (forall n v, n <> a -> n <> b -> (holds s' n v <-> holds s n v)).
Proof.
  intros HO E. apply one_kind_pw in HO as [m Hm].
  destruct (step_refines e s m (MoveVariable a b) s' _ Hm I E) as (m' & Hs & Hm').
  simpl in Hs.
  destruct (m !! b) as [v|] eqn:Eb; [destruct Hs; discriminate|].
  destruct (m !! a) as [v|] eqn:Ea; [|destruct Hs; discriminate]. destruct Hs as [-> _].
  assert (a <> b) by congruence.
  split; [|split].
  - intro w. rewrite <- (Hm' b w), <- (Hm a w), lookup_insert, Ea. reflexivity.
  - intros w Hw. apply Hm' in Hw. rewrite lookup_insert_ne, lookup_delete in Hw by congruence. discriminate.
  - intros n w H1 H2. rewrite <- (Hm' n w), <- (Hm n w), lookup_insert_ne, lookup_delete_ne by congruence.
    reflexivity.
Qed.

Lemma move_taken e s a b s' res : taken s b -> step e s (MoveVariable a b) = (s', res) -> res = Exc /\ s' = s.
Proof.
  intros H E. assert (res = Exc) by (apply (move_fails e s a b s' res E); now left).
  split; [assumption|]. eapply creation_failure; [|exact E|assumption]. exact I.
Qed.

Lemma move_self e s a s' res : step e s (MoveVariable a a) = (s', res) -> res = Exc /\ s' = s.
Proof.
  intro E. destruct (exists_in_tables s a) eqn:Ex.
  - eapply move_taken; [|exact E]. now apply exists_taken.
  - assert (res = Exc).
    { apply (move_fails e s a a s' res E). right. now apply free_not_taken, exists_free. }
    split; [assumption|]. eapply creation_failure; [|exact E|assumption]. exact I.
Qed.

(** *** C07 - C09 *)
Lemma erase_holds s re n (v : var K F T N) :
  holds (Store (erase_matching re (t_kart s)) (erase_matching re (t_f1 s))
             (erase_matching re (t_track s)) (erase_matching re (t_scalar s))
             (erase_matching re (t_vector s))) n v <-> holds s n v /\ matches_name re n = false.
Proof.
  destruct v; simpl; rewrite erase_matching_lookup; destruct (matches_name re n); intuition discriminate.
Qed.

Lemma delete_plain e s p : all_chars plain p ->
  exists s', step e s (DeleteVariable p) = (s', Ret VUnit) /\
    forall n v, holds s' n v <-> holds s n v /\ n <> p.
Proof.
  intro H. destruct (compile_plain p H) as (re & Ec & Hre). simpl. unfold delete_variable. rewrite Ec.
  eexists; split; [reflexivity|]. intros n v. rewrite erase_holds, <- not_true_iff_false, Hre. reflexivity.
Qed.
Lemma delete_glob e s p : all_chars plain_or_star p ->
  exists s', step e s (DeleteVariable p) = (s', Ret VUnit) /\
    forall n v, holds s' n v <-> holds s n v /\ ~ glob_name p n.
Proof.
  intro H. destruct (compile_glob p H) as (re & Ec & Hre). simpl. unfold delete_variable. rewrite Ec.
  eexists; split; [reflexivity|]. intros n v. rewrite erase_holds, <- not_true_iff_false, Hre. reflexivity.
Qed.
Lemma delete_dotted e s p : all_chars plain_or_dot p ->
  exists s', step e s (DeleteVariable p) = (s', Ret VUnit) /\
    forall n v, holds s' n v <-> holds s n v /\ ~ dotted_name p n.
Proof.
  intro H. destruct (compile_dotted p H) as (re & Ec & Hre). simpl. unfold delete_variable. rewrite Ec.
  eexists; split; [reflexivity|]. intros n v. rewrite erase_holds, <- not_true_iff_false, Hre. reflexivity.
Qed.

(** *** C10 *)
Lemma variable_type_agrees (e : env K F T N) s n : one_kind s ->
  (variable_type s n = Ret (VStr "scalar") <-> exists x, download_scalar s n = Ret (VNum x)) /\
  (variable_type s n = Ret (VStr "vector") <-> exists l, download_vector_size s n = Ret (VNat l)) /\
  (variable_type s n = Ret (VStr "track") <-> exists x, track_download_length e s n = Ret (VNum x)) /\
  (variable_type s n = Ret (VStr "f1-3dof") <-> exists c, holds s n (VarF1 c)) /\
  (variable_type s n = Ret (VStr "kart-6dof") <-> exists k, holds s n (VarKart k)) /\
  (variable_type s n = Exc <-> free s n) /\
  (variable_type s n = Exc \/ exists t, variable_type s n = Ret (VStr t)).
Proof.
  intro HO. apply one_kind_pw in HO as [m Hm]. rewrite represents_pw in Hm. specialize (Hm n).
  rewrite <- exists_free, exists_false.
  unfold variable_type, download_scalar, download_vector_size, track_download_length, has, holds.
  unfold rep in Hm.
  inversion Hm; repeat split; intros;
    repeat match goal with H : exists _, _ |- _ => destruct H | H : _ /\ _ |- _ => destruct H end;
    try discriminate; eauto.
Qed.

(** *** C15 *)
Lemma save_laptime_value r (m : gmap string N) :
  "laptime" ∈ lr_variables r -> m !! (lr_prefix r +:+ "laptime") = None ->
  save_laptime r m !! (lr_prefix r +:+ "laptime") = Some (lr_laptime r).
Proof.
  intros Hl Hm. unfold save_laptime.
  assert (existsb (String.eqb "laptime") (lr_variables r) = true) as ->.
  { apply existsb_exists. exists "laptime". split; [now apply elem_of_list_In|apply String.eqb_refl]. }
  assert (A : insert_new m (lr_prefix r +:+ "laptime") (lr_laptime r) !! (lr_prefix r +:+ "laptime")
              = Some (lr_laptime r)).
  { rewrite insert_new_fresh by exact Hm. apply lookup_insert. }
  destruct (lr_sensitivity r); [|exact A].
  eapply ext_keep; [|exact A].
  apply (ext_fold (fun _ => True) (fun ia : nat * string => derivative_name (lr_prefix r) "laptime" ia.2)
    (fun ia => lr_dlaptime r ia.1)). auto.
Qed.

Lemma derivative_inj p v w a b : no_slash v -> no_slash w ->
  derivative_name p v a = derivative_name p w b -> v = w /\ a = b.
Proof.
  intros Hv Hw H. unfold derivative_name in H. apply append_inj in H.
  apply (append_inj "derivatives/" (v +:+ "/" +:+ a)) in H. now apply split_slash.
Qed.

Lemma imap_pair_elem (l : list string) i a : (i, a) ∈ imap pair l <-> l !! i = Some a.
Proof.
  rewrite elem_of_lookup_imap. split.
  - intros (j & x & [= -> ->] & H). exact H.
  - intro H. eauto.
Qed.

Lemma save_laptime_derivative r (m : gmap string N) i a :
  "laptime" ∈ lr_variables r -> lr_sensitivity r = true -> NoDup (lr_aliases r) ->
  lr_aliases r !! i = Some a ->
  m !! derivative_name (lr_prefix r) "laptime" a = None ->
  save_laptime r m !! derivative_name (lr_prefix r) "laptime" a = Some (lr_dlaptime r i).
Proof.
  intros Hl Hs Hd Hi Hm. unfold save_laptime. rewrite Hs.
  assert (existsb (String.eqb "laptime") (lr_variables r) = true) as ->.
  { apply existsb_exists. exists "laptime". split; [now apply elem_of_list_In|apply String.eqb_refl]. }
  apply (fold_value (fun ia : nat * string => derivative_name (lr_prefix r) "laptime" ia.2)
    (fun ia => lr_dlaptime r ia.1) _ (i, a)).
  - now apply imap_pair_elem.
  - rewrite insert_new_ne; [exact Hm|]. unfold derivative_name. intro H. simpl in H.
    apply append_inj in H. discriminate.
  - intros [j b] Hb Hn. simpl in Hn |- *. apply imap_pair_elem in Hb.
    apply derivative_inj in Hn as [_ ->]; auto using no_slash_laptime.
    f_equal. eapply NoDup_lookup; eauto.
Qed.

Lemma save_integrals_value r vs v : forall (m m' : gmap string N),
  save_integrals r vs m = (m', true) -> v ∈ vs -> m !! (lr_prefix r +:+ v) = None ->
  exists x, lr_integral r (integral_name v) = Some x /\ m' !! (lr_prefix r +:+ v) = Some x.
Proof.
  induction vs as [|w vs IH]; intros m m' E Hv Hm; [now apply elem_of_nil in Hv|].
  simpl in E. destruct (lr_integral r (integral_name w)) as [x|] eqn:Ew; [|discriminate].
  destruct (decide (w = v)) as [->|Hne].
  - exists x. split; [exact Ew|].
    assert (A : ext (fun _ => True) (insert_new m (lr_prefix r +:+ v) x) m').
    { clear -E. revert E. generalize (insert_new m (lr_prefix r +:+ v) x) as m0.
      induction vs as [|u vs IH]; intro m0; simpl; [intros [= <-]; apply ext_refl|].
      destruct (lr_integral r (integral_name u)); [|discriminate]. intro E.
      eapply ext_trans; [|apply IH, E]. now apply ext_new. }
    eapply ext_keep; [exact A|]. rewrite insert_new_fresh by exact Hm. apply lookup_insert.
  - apply elem_of_cons in Hv as [->|Hv]; [congruence|]. eapply IH; eauto.
    rewrite insert_new_ne; [exact Hm|]. intro H. apply append_inj in H. congruence.
Qed.

Lemma substring_all w : forall k, k = String.length w -> String.substring 0 k w = w.
Proof. induction w as [|c w IH]; intros k ->; simpl; [reflexivity|]. now rewrite IH. Qed.

Lemma substring_append p w : String.substring (String.length p)
  (String.length (p +:+ w) - String.length p) (p +:+ w) = w.
Proof.
  induction p as [|c p IH]; simpl.
  - rewrite Nat.sub_0_r. now apply substring_all.
  - exact IH.
Qed.

Lemma integral_name_spec q : integral_name ("integral_quantities." +:+ q) = q.
Proof. apply substring_append. Qed.

Lemma is_integral_spec v : is_integral v = true <-> exists q, v = "integral_quantities." +:+ q.
Proof.
  split; [apply prefix_integral|]. intros [q ->]. unfold is_integral, integral_prefix.
  generalize "integral_quantities.". intro p. induction p as [|c p IH]; simpl; [now destruct q|].
  destruct (ascii_dec c c); [exact IH|congruence].
Qed.

Lemma save_sens_value r vs v i a : forall (m : gmap string (list N)),
  (forall w, w ∈ vs -> no_slash w) ->
  v ∈ vs -> lr_sensitivity r = true -> NoDup (lr_aliases r) -> lr_aliases r !! i = Some a ->
  m !! derivative_name (lr_prefix r) v a = None ->
  save_sensitivities r vs m !! derivative_name (lr_prefix r) v a = Some (lr_dvector r v i).
Proof.
  intros m Hns Hv Hs Hd Hi. unfold save_sensitivities. rewrite Hs. revert m.
  induction vs as [|w vs IH]; intros m Hm; [now apply elem_of_nil in Hv|]. simpl.
  destruct (decide (w = v)) as [->|Hne].
  - match goal with |- foldl _ ?m1 vs !! _ = _ => assert (A : m1 !! derivative_name (lr_prefix r) v a = Some (lr_dvector r v i)) end.
    { apply (fold_value (fun ia : nat * string => derivative_name (lr_prefix r) v ia.2)
        (fun ia => lr_dvector r v ia.1) _ (i, a)).
      - now apply imap_pair_elem.
      - exact Hm.
      - intros [j b] Hb Hn. simpl in Hn |- *. apply imap_pair_elem in Hb.
        apply derivative_inj in Hn as [_ ->]; [|apply Hns; left|apply Hns; left].
        f_equal. eapply NoDup_lookup; eauto. }
    revert A. match goal with |- ?m1 !! _ = _ -> _ => generalize m1 end. clear.
    induction vs as [|u vs IH]; intros m1 A; simpl; [exact A|]. apply IH.
    eapply ext_keep; [|exact A].
    apply (ext_fold (fun _ => True) (fun ia : nat * string => derivative_name (lr_prefix r) u ia.2)
      (fun ia => lr_dvector r u ia.1)). auto.
  - apply elem_of_cons in Hv as [->|Hv]; [congruence|]. apply IH; auto.
    { intros u Hu. apply Hns. now right. }
    rewrite <- Hm.
    apply (ext_frame (fun n => exists b, n = derivative_name (lr_prefix r) w b)).
    + apply (ext_fold _ (fun ia : nat * string => derivative_name (lr_prefix r) w ia.2)
        (fun ia => lr_dvector r w ia.1)). intros [j b] _. exists b. reflexivity.
    + intros [b Hb]. apply derivative_inj in Hb as [? _]; [congruence|apply Hns; now right|apply Hns; left].
Qed.

Lemma store_laptime_success s r s' :
  (forall v l, lr_vector r v = Some l -> no_slash v) ->
  store_laptime s r = (s', Ret VUnit) ->
  (forall v, v ∈ lr_variables r -> stored_output r s' v) /\
  (lr_sensitivity r = true -> NoDup (lr_aliases r) ->
   forall v, v ∈ lr_variables r -> stored_sensitivity r s' v).
Proof.
  intros Hns HE. unfold store_laptime in HE.
  destruct (laptime_names_free s r) eqn:Ef; [|discriminate].
  pose proof (proj1 (names_free_spec s r) Ef) as Hfree.
  simpl in HE. destruct (save_integrals r (integral_variables r) (save_laptime r (t_scalar s))) as [m2 ok] eqn:Ei.
  destruct ok; [|discriminate].
  destruct (compute_vectors r (vector_variables r)) as [data|] eqn:Ec; [|discriminate].
  injection HE as <-. destruct (compute_vectors_in r _ data Ec) as [C1 C2].
  assert (Eint : ext (scalar_writes r) (save_laptime r (t_scalar s)) m2)
    by (eapply save_integrals_ext; [|exact Ei]; auto).
  assert (Fr : forall n, laptime_writes r n -> t_scalar s !! n = None /\ t_vector s !! n = None).
  { intros n Hn. apply Hfree, exists_false in Hn. tauto. }
  assert (Vns : forall w, w ∈ vector_variables r -> no_slash w).
  { intros w Hw. destruct (C2 w Hw) as (l & _ & Hl). eauto. }
  split.
  - intros v Hv. unfold stored_output.
    assert (W : laptime_writes r (lr_prefix r +:+ v)) by (exists v; auto). destruct (Fr _ W) as [Fs Fv].
    split; [|split].
    + intros ->. simpl. eapply ext_keep; [exact Eint|]. now apply save_laptime_value.
    + intros q ->. simpl.
      destruct (save_integrals_value r (integral_variables r) ("integral_quantities." +:+ q)
                  _ m2 Ei) as (x & Hx & Hm).
      * apply integral_vars_spec. split; [exact Hv|]. split; [discriminate|]. apply is_integral_spec. eauto.
      * (* the laptime part does not write this name *)
        rewrite <- Fs.
        apply (ext_frame (fun n => n = lr_prefix r +:+ "laptime" \/
                  exists a, n = derivative_name (lr_prefix r) "laptime" a)).
        -- unfold save_laptime. destruct (existsb _ _); [|apply ext_refl].
           eapply ext_trans; [apply ext_new; now left|].
           destruct (lr_sensitivity r); [|apply ext_refl].
           apply (ext_fold _ (fun ia : nat * string => derivative_name (lr_prefix r) "laptime" ia.2)
             (fun ia => lr_dlaptime r ia.1)). intros [j b] _. right. exists b. reflexivity.
        -- unfold derivative_name. intros [H|[a H]]; simpl in H; apply append_inj in H; discriminate.
      * rewrite integral_name_spec in Hx. exists x. split; [exact Hx|exact Hm].
    + intros Hl Hi. simpl. assert (Vv : v ∈ vector_variables r).
      { apply vector_vars_spec. split; [exact Hv|]. split; [exact Hl|].
        apply not_true_iff_false. rewrite is_integral_spec. intros [q Hq]. now apply (Hi q). }
      destruct (C2 v Vv) as (l & Hin & Hlv). exists l. split; [exact Hlv|].
      eapply ext_keep; [apply save_sens_ext; auto|].
      apply (fold_value (fun vl : string * list N => lr_prefix r +:+ vl.1) snd data (v, l)); auto.
      intros [w l'] Hw Hn. simpl in Hn |- *. apply append_inj in Hn. subst w.
      apply C1 in Hw as [_ Hw]. congruence.
  - intros Hs Hd v Hv i a Hi n.
    assert (W : laptime_writes r n).
    { exists v. split; [exact Hv|]. right. split; [exact Hs|]. exists a. split; [|reflexivity].
      eapply elem_of_list_lookup_2; eauto. }
    destruct (Fr _ W) as [Fs Fv]. split.
    + intros ->. simpl. eapply ext_keep; [exact Eint|]. now apply save_laptime_derivative.
    + intros Hl Hq. simpl. assert (Vv : v ∈ vector_variables r).
      { apply vector_vars_spec. split; [exact Hv|]. split; [exact Hl|].
        apply not_true_iff_false. rewrite is_integral_spec. intros [q E]. now apply (Hq q). }
      apply (save_sens_value r (vector_variables r) v i a); auto.
      change (derivative_name (lr_prefix r) v a) with n. rewrite <- Fv.
      apply (ext_frame (fun n => exists w, w ∈ vector_variables r /\ n = lr_prefix r +:+ w)).
      * unfold save_vectors.
        apply (ext_fold _ (fun vl : string * list N => lr_prefix r +:+ vl.1) snd).
        intros [w l] Hw. exists w. split; [now apply C1 in Hw|reflexivity].
      * intros (w & Hw & Hn). unfold n in Hn. apply append_inj in Hn. subst w.
        now apply Vns, no_slash_derivative in Hw.
Qed.

Lemma laptime_outputs e s n tr r s' res :
  step e s (OptimalLaptime n tr r) = (s', res) ->
  (* nothing that existed is changed, except the vehicle object itself *)
  (forall n' v, n' <> n -> holds s n' v -> holds s' n' v) /\
  (* a taken output name: error, and nothing is stored *)
  ((exists o, laptime_writes r o /\ taken s o) -> ((exists k, holds s n (VarKart k)) \/ exists c, holds s n (VarF1 c)) ->
   res = Exc /\ forall n' v, n' <> n -> (holds s' n' v <-> holds s n' v)).
Proof.
  simpl. intro E.
  assert (key : forall s0, (forall n' v, n' <> n -> (holds s0 n' v <-> holds s n' v)) ->
      (forall n', taken s n' -> taken s0 n') ->
      store_laptime s0 r = (s', res) ->
      (forall n' v, n' <> n -> holds s n' v -> holds s' n' v) /\
      ((exists o, laptime_writes r o /\ taken s o) ->
        res = Exc /\ forall n' v, n' <> n -> (holds s' n' v <-> holds s n' v))).
  { intros s0 H0 Ht0 Es. destruct (store_laptime_ext s0 r s' res Es) as (A & B & C & D & G). split.
    - intros n' v Hn Hv. apply (proj2 (H0 n' v Hn)) in Hv. destruct v; simpl in *; try congruence;
      eapply ext_keep; eauto.
    - intros (o & Ho & Hto). unfold store_laptime in Es.
      destruct (laptime_names_free s0 r) eqn:Ef.
      + pose proof (proj1 (names_free_spec s0 r) Ef o Ho) as Hf.
        apply exists_free, free_not_taken in Hf. exfalso. auto.
      + injection Es as <- <-. auto. }
  unfold optimal_laptime in E.
  destruct (t_kart s !! n) as [k|] eqn:Ek.
  - destruct (t_track s !! tr) as [t|]; [|injection E as <- <-; split; [auto|]; intros _ _; split; [reflexivity|]; reflexivity].
    destruct (negb (lr_options r)); [injection E as <- <-; split; [auto|]; intros _ _; split; [reflexivity|]; reflexivity|].
    destruct (e_kart_track e k t) as [k' b].
    set (s0 := set_kart s (<[n:=k']> (t_kart s))) in *.
    assert (H0 : forall n' v, n' <> n -> (holds s0 n' v <-> holds s n' v)).
    { intros n' v Hn. destruct v; simpl; rewrite ?lookup_insert_ne by congruence; reflexivity. }
    assert (Ht0 : forall n', taken s n' -> taken s0 n').
    { intros n' [v Hv]. destruct (decide (n' = n)) as [->|Hn]; [|exists v; now apply H0].
      exists (VarKart k'). simpl. apply lookup_insert. }
    destruct (b && lr_computed r).
    + destruct (key s0 H0 Ht0 E) as [K1 K2]. split; [exact K1|]. intros Ho _. now apply K2.
    + injection E as <- <-. split; [intros; now apply H0|auto].
  - destruct (t_f1 s !! n) as [c|] eqn:Ef.
    2: { injection E as <- <-. split; [auto|]. intros _ [[k Hk]|[c Hc]]; simpl in *; congruence. }
    destruct (t_track s !! tr) as [t|]; [|injection E as <- <-; split; [auto|]; intros _ _; split; [reflexivity|]; reflexivity].
    destruct (negb (lr_options r)); [injection E as <- <-; split; [auto|]; intros _ _; split; [reflexivity|]; reflexivity|].
    destruct (e_f1_track e c t) as [c' b].
    set (s0 := set_f1 s (<[n:=c']> (t_f1 s))) in *.
    assert (H0 : forall n' v, n' <> n -> (holds s0 n' v <-> holds s n' v)).
    { intros n' v Hn. destruct v; simpl; rewrite ?lookup_insert_ne by congruence; reflexivity. }
    assert (Ht0 : forall n', taken s n' -> taken s0 n').
    { intros n' [v Hv]. destruct (decide (n' = n)) as [->|Hn]; [|exists v; now apply H0].
      exists (VarF1 c'). simpl. apply lookup_insert. }
    destruct (b && lr_computed r).
    + destruct (key s0 H0 Ht0 E) as [K1 K2]. split; [exact K1|]. intros Ho _. now apply K2.
    + injection E as <- <-. split; [intros; now apply H0|auto].
Qed.

Lemma laptime_success e s n tr r s' :
  (forall v l, lr_vector r v = Some l -> no_slash v) ->
  (exists k, holds s n (VarKart k)) \/ (exists c, holds s n (VarF1 c)) ->
  step e s (OptimalLaptime n tr r) = (s', Ret VUnit) ->
  (forall v, v ∈ lr_variables r -> stored_output r s' v) /\
  (lr_sensitivity r = true -> NoDup (lr_aliases r) ->
   forall v, v ∈ lr_variables r -> stored_sensitivity r s' v).
Proof.
  intros Hns Hveh. simpl. unfold optimal_laptime.
  destruct (t_kart s !! n) as [k|] eqn:Ek.
  - destruct (t_track s !! tr) as [t|]; [|discriminate].
    destruct (negb (lr_options r)); [discriminate|].
    destruct (e_kart_track e k t) as [k' b]. destruct (b && lr_computed r); [|discriminate].
    now apply store_laptime_success.
  - destruct (t_f1 s !! n) as [c|] eqn:Ef.
    + destruct (t_track s !! tr) as [t|]; [|discriminate].
      destruct (negb (lr_options r)); [discriminate|].
      destruct (e_f1_track e c t) as [k' b]. destruct (b && lr_computed r); [|discriminate].
      now apply store_laptime_success.
    + destruct Hveh as [[k Hk]|[c Hc]]; simpl in *; congruence.
Qed.

(** *** C16: the output phase is all-or-nothing when all requested names are known *)
Lemma save_integrals_total r vs : forall (m m' : gmap string N) ok,
  (forall v, v ∈ vs -> lr_integral r (integral_name v) <> None) ->
  save_integrals r vs m = (m', ok) -> ok = true.
Proof.
  induction vs as [|v vs IH]; intros m m' ok H; simpl; [intros [= _ <-]; reflexivity|].
  destruct (lr_integral r (integral_name v)) eqn:E.
  - apply IH. intros w Hw. apply H. now right.
  - exfalso. apply (H v); [left|exact E].
Qed.

Lemma compute_vectors_total (r : laptime_run N) vs :
  (forall v, v ∈ vs -> lr_vector r v <> None) -> compute_vectors r vs <> None.
Proof.
  induction vs as [|v vs IH]; intros H; simpl; [discriminate|].
  destruct (lr_vector r v) eqn:E; [|exfalso; apply (H v); [left|exact E]].
  destruct (compute_vectors r vs); [discriminate|].
  apply IH. intros w Hw. apply H. now right.
Qed.

Lemma store_laptime_atomic s r s' res :
  (forall v, v ∈ lr_variables r -> known_name r v) ->
  store_laptime s r = (s', res) -> res = Exc -> s' = s.
Proof.
  intros Hk HE Hres. unfold store_laptime in HE.
  destruct (laptime_names_free s r); [|congruence]. simpl in HE.
  destruct (save_integrals r (integral_variables r) (save_laptime r (t_scalar s))) as [m2 ok] eqn:Ei.
  apply save_integrals_total in Ei.
  2: { intros v Hv. apply integral_vars_spec in Hv as (Hv & Hl & Hi). apply is_integral_spec in Hi as [q ->].
       rewrite integral_name_spec.
       destruct (Hk _ Hv) as [?|[(q' & Hq & Hq')|[Hn _]]]; [congruence| |now destruct (Hn q)].
       apply (append_inj "integral_quantities.") in Hq. now subst q'. }
  subst ok.
  destruct (compute_vectors r (vector_variables r)) eqn:Ec; [congruence|].
  exfalso. revert Ec. apply compute_vectors_total. intros v Hv.
  apply vector_vars_spec in Hv as (Hv & Hl & Hi).
  destruct (Hk _ Hv) as [?|[(q & -> & _)|[_ H]]]; [congruence| |exact H].
  exfalso. apply not_true_iff_false in Hi. apply Hi, is_integral_spec. eauto.
Qed.

Lemma laptime_atomic e s n tr r s' :
  (forall v, v ∈ lr_variables r -> known_name r v) ->
  step e s (OptimalLaptime n tr r) = (s', Exc) ->
  forall n' v, n' <> n -> (holds s' n' v <-> holds s n' v).
Proof.
  intros Hk. simpl. unfold optimal_laptime.
  assert (key : forall s0 m' res, store_laptime s0 r = (m', res) -> res = Exc -> m' = s0)
    by (intros; eapply store_laptime_atomic; eauto).
  destruct (t_kart s !! n) as [k|] eqn:Ek.
  - destruct (t_track s !! tr) as [t|]; [|intros [= <-]; reflexivity].
    destruct (negb (lr_options r)); [intros [= <-]; reflexivity|].
    destruct (e_kart_track e k t) as [k' b]. intros E n' v Hn.
    assert (s' = set_kart s (<[n:=k']> (t_kart s))) as ->.
    { destruct (b && lr_computed r); [eapply key; [exact E|reflexivity]|congruence]. }
    destruct v; simpl; rewrite ?lookup_insert_ne by congruence; reflexivity.
  - destruct (t_f1 s !! n) as [c|] eqn:Ef; [|discriminate].
    destruct (t_track s !! tr) as [t|]; [|intros [= <-]; reflexivity].
    destruct (negb (lr_options r)); [intros [= <-]; reflexivity|].
    destruct (e_f1_track e c t) as [k' b]. intros E n' v Hn.
    assert (s' = set_f1 s (<[n:=k']> (t_f1 s))) as ->.
    { destruct (b && lr_computed r); [eapply key; [exact E|reflexivity]|congruence]. }
    destruct v; simpl; rewrite ?lookup_insert_ne by congruence; reflexivity.
Qed.

(** *** C17 *)
Lemma save_prep_atomic prefix (out : string -> list N) vs : forall m m' ok,
  NoDup vs -> (forall v, v ∈ vs -> m !! (prefix +:+ v) = None) ->
  save_prep_vectors prefix out vs m = (m', ok) ->
  ok = true /\ forall v, v ∈ vs -> m' !! (prefix +:+ v) = Some (out v).
Proof.
  induction vs as [|v vs IH]; intros m m' ok Hd Hf; simpl.
  - intros [= _ <-]. split; [reflexivity|]. intros v Hv. now apply elem_of_nil in Hv.
  - apply NoDup_cons in Hd as [Hv Hd]. rewrite has_none by (apply Hf; left).
    rewrite insert_new_fresh by (apply Hf; left).
    intro E. pose proof (save_prep_ext _ _ _ _ _ _ E) as Ex. apply IH in E as [-> E]; auto.
    + split; [reflexivity|]. intros w Hw. apply elem_of_cons in Hw as [->|Hw]; [|now apply E].
      eapply ext_keep; [exact Ex|]. apply lookup_insert.
    + intros w Hw. rewrite lookup_insert_ne; [apply Hf; now right|]. intro H. apply append_inj in H.
      congruence.
Qed.

Lemma prep_outputs_nodup : NoDup prep_outputs.
Proof.
  apply (bool_decide_unpack _). vm_compute. exact I.
Qed.

Lemma prep_success_cond s (r : prep_run T N) s' res :
  pr_computed r = true -> pr_xml r <> Some false ->
  (forall n, prep_writes r n -> free s n) ->
  circuit_preprocessor s r = (s', res) ->
  res = Ret VUnit /\
  (forall n, pr_table r = Some n -> holds s' n (VarTrack (pr_track r))) /\
  (forall p x, pr_prefix r = Some p -> x ∈ prep_vector_names ->
     holds s' (p +:+ x) (VarVector (pr_output r x))).
Proof.
  intros Hc Hx Hf. unfold circuit_preprocessor. rewrite Hc.
  unfold prep_track_phase.
  assert (Hf' : forall n, prep_writes r n -> t_track s !! n = None /\ t_vector s !! n = None).
  { intros n Hn. apply Hf, exists_free, exists_false in Hn. tauto. }
  assert (key : forall s1, t_vector s1 = t_vector s -> 
     prep_vector_phase s1 r = (s', res) -> res = Ret VUnit /\ t_track s' = t_track s1 /\
     (forall p x, pr_prefix r = Some p -> x ∈ prep_vector_names ->
       holds s' (p +:+ x) (VarVector (pr_output r x)))).
  { intros s1 Hs1. unfold prep_vector_phase. destruct (pr_prefix r) as [p|] eqn:Ep.
    - destruct (save_prep_vectors p (pr_output r) prep_outputs (t_vector s1)) as [m ok] eqn:Es.
      intros [= <- <-]. apply save_prep_atomic in Es as [-> Es].
      + split; [reflexivity|]. split; [reflexivity|]. intros p' x [= <-] Hx'. simpl. now apply Es.
      + apply prep_outputs_nodup.
      + intros v Hv. rewrite Hs1. apply Hf'. right. exists p, v. auto.
    - intros [= <- <-]. split; [reflexivity|]. split; [reflexivity|]. intros; discriminate. }
  destruct (pr_table r) as [n|] eqn:En.
  - assert (Hn : t_track s !! n = None) by (apply Hf'; now left).
    rewrite has_none by exact Hn. rewrite insert_new_fresh by exact Hn. intro E.
    assert (E' : prep_vector_phase (set_track s (<[n:=pr_track r]> (t_track s))) r = (s', res)).
    { destruct (pr_xml r) as [[|]|]; congruence. }
    destruct (key (set_track s (<[n:=pr_track r]> (t_track s))) eq_refl E') as (-> & Ht & Hv).
    split; [reflexivity|]. split; [|exact Hv].
    intros n' [= <-]. simpl. rewrite Ht. simpl. apply lookup_insert.
  - intro E. assert (E' : prep_vector_phase s r = (s', res)) by (destruct (pr_xml r) as [[|]|]; congruence).
    destruct (key _ eq_refl E') as (-> & Ht & Hv). split; [reflexivity|]. split; [|exact Hv]. discriminate.
Qed.

(** *** C18 *)
Lemma declare_unknown e s n p a x :
  (forall k, ~ holds s n (VarKart k)) -> (forall c, ~ holds s n (VarF1 c)) ->
  step e s (VehicleDeclareConstant n p a x) = (s, Exc).
Proof.
  intros H1 H2. simpl. unfold vehicle_declare_constant.
  destruct (t_f1 s !! n) as [c|] eqn:E; [now destruct (H2 c)|].
  destruct (t_kart s !! n) as [k|] eqn:E'; [now destruct (H1 k)|]. reflexivity.
Qed.
Lemma declare_variable_unknown e s n p a x g :
  (forall k, ~ holds s n (VarKart k)) -> (forall c, ~ holds s n (VarF1 c)) ->
  step e s (VehicleDeclareVariable n p a x g) = (s, Exc).
Proof.
  intros Hk Hf. simpl in *. unfold vehicle_declare_variable.
  destruct (t_f1 s !! n) as [c|] eqn:E; [now destruct (Hf c)|].
  destruct (t_kart s !! n) as [k|] eqn:E2; [now destruct (Hk k)|]. reflexivity.
Qed.

Lemma vehicle_calls_unknown e s n : (forall k, ~ holds s n (VarKart k)) -> (forall c, ~ holds s n (VarF1 c)) ->
  (forall tr, step e s (VehicleChangeTrack n tr) = (s, Ret VUnit)) /\
  (forall tr uc ok, step e s (PropagateVehicle n tr uc ok) = (s, Ret VUnit)) /\
  (forall ok, step e s (SteadyState n ok) = (s, Ret VUnit)) /\
  (forall ok, step e s (GgDiagram n ok) = (s, Ret VUnit)) /\
  (forall tr r, step e s (OptimalLaptime n tr r) = (s, Ret VUnit)).
Proof.
  intros Hk Hf. simpl in *.
  unfold vehicle_change_track, propagate_vehicle, vehicle_solve, optimal_laptime, has.
  destruct (t_kart s !! n) as [k|] eqn:E2; [now destruct (Hk k)|].
  destruct (t_f1 s !! n) as [c|] eqn:E; [now destruct (Hf c)|]. repeat split.
Qed.

Lemma set_parameter_unknown e s n p x : (forall c, ~ holds s n (VarF1 c)) ->
  step e s (VehicleSetParameter n p x) = (s, Ret VUnit).
Proof.
  intros H. simpl. unfold vehicle_set_parameter.
  destruct (t_f1 s !! n) as [c|] eqn:E; [now destruct (H c)|]. reflexivity.
Qed.

End Proofs.

(** Satisfiability of the wildcard specification. *)
Lemma glob_case_yes : glob_name "run/*" "run/chassis".
Proof.
  unfold glob_name. simpl. do 4 (apply glob_chr; [discriminate|]).
  apply (glob_star (list_ascii_of_string "chassis") [] []); [|constructor].
  split; intro H; vm_compute in H; intuition discriminate.
Qed.
Lemma glob_case_no : ~ glob_name "run/*" "ran/chassis".
Proof. unfold glob_name. simpl. intro H. inversion H; subst. inversion H4. Qed.

(** Solves [all_chars P s] for concrete [s]. *)
Ltac solve_chars :=
  unfold all_chars; simpl;
  repeat (apply Forall_cons; split; [first
    [ intro; simpl in *; intuition discriminate
    | left; intro; simpl in *; intuition discriminate
    | right; reflexivity ] | ]);
  apply Forall_nil; exact I.
