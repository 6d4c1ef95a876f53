(** Proofs about the output phases of optimal_laptime and circuit_preprocessor,
    and the invariants over arbitrary histories. *)
From stdpp Require Import base strings gmap list.
From Coq Require Import ZArith Ascii.
From Verif Require Import M_Regex S_Regex L_Regex M_Store S_Store L_Store.

(** [m'] extends [m], adding only names in [W]. *)
Definition ext {A} (W : string -> Prop) (m m' : gmap string A) : Prop :=
  forall n, m' !! n = m !! n \/ (W n /\ m !! n = None).

Lemma ext_keep {A} W (m m' : gmap string A) n x : ext W m m' -> m !! n = Some x -> m' !! n = Some x.
Proof. intros H Hx. destruct (H n) as [->|[_ E]]; congruence. Qed.

Lemma ext_frame {A} W (m m' : gmap string A) n : ext W m m' -> ~ W n -> m' !! n = m !! n.
Proof. intros H Hx. destruct (H n) as [->|[E _]]; [reflexivity|contradiction]. Qed.

Lemma ext_refl {A} W (m : gmap string A) : ext W m m.
Proof. intro n; auto. Qed.

Lemma ext_trans {A} W (m1 m2 m3 : gmap string A) : ext W m1 m2 -> ext W m2 m3 -> ext W m1 m3.
Proof. intros H1 H2 n. destruct (H1 n) as [E|[E1 E2]]; destruct (H2 n) as [E'|[E1' E2']]; auto; 
  [left; congruence | right; split; [assumption|congruence]]. Qed.

Lemma ext_mono {A} (W W' : string -> Prop) (m m' : gmap string A) :
  (forall n, W n -> W' n) -> ext W m m' -> ext W' m m'.
Proof. intros H E n. destruct (E n) as [?|[? ?]]; auto. Qed.

Lemma ext_new {A} (W : string -> Prop) (m : gmap string A) n a : W n -> ext W m (insert_new m n a).
Proof.
  intros HW n'. unfold insert_new. destruct (m !! n) eqn:E; [auto|].
  destruct (decide (n' = n)) as [->|]; [auto|]. left. now rewrite lookup_insert_ne by congruence.
Qed.

Lemma ext_fold {A B} (W : string -> Prop) (name : B -> string) (val : B -> A) (bs : list B) :
  forall m, (forall b, b ∈ bs -> W (name b)) ->
  ext W m (foldl (fun m b => insert_new m (name b) (val b)) m bs).
Proof.
  induction bs as [|b bs IH]; intros m H; simpl; [apply ext_refl|].
  eapply ext_trans; [apply ext_new, H; left | apply IH; intros; apply H; now right].
Qed.

Lemma insert_new_bound {A} (m : gmap string A) n a : exists x, insert_new m n a !! n = Some x.
Proof.
  unfold insert_new. destruct (m !! n) as [x|] eqn:E; [eauto|]. rewrite lookup_insert. eauto.
Qed.

Lemma fold_bound {A B} (name : B -> string) (val : B -> A) (bs : list B) b :
  forall m, b ∈ bs -> exists x, foldl (fun m b => insert_new m (name b) (val b)) m bs !! name b = Some x.
Proof.
  induction bs as [|b' bs IH]; intros m Hb; simpl; [now apply elem_of_nil in Hb|].
  apply elem_of_cons in Hb as [->|Hb]; [|now apply IH].
  destruct (insert_new_bound m (name b') (val b')) as [x Hx]. exists x.
  assert (Q : ext (fun _ => True) (insert_new m (name b') (val b'))
            (foldl (fun m b => insert_new m (name b) (val b)) (insert_new m (name b') (val b')) bs))
    by (apply ext_fold; auto).
  now apply (ext_keep _ _ _ _ _ Q).
Qed.

(** Value stored by a fold when the name was free and equal names carry equal values. *)
Lemma fold_value {A B} (name : B -> string) (val : B -> A) (bs : list B) b :
  forall m, b ∈ bs -> m !! name b = None ->
  (forall b', b' ∈ bs -> name b' = name b -> val b' = val b) ->
  foldl (fun m b => insert_new m (name b) (val b)) m bs !! name b = Some (val b).
Proof.
  induction bs as [|b' bs IH]; intros m Hb Hm Hu; simpl; [now apply elem_of_nil in Hb|].
  destruct (decide (name b' = name b)) as [E|E].
  - rewrite <- (Hu b') by (auto; left). rewrite <- E in *.
    assert (Q : ext (fun _ => True) (insert_new m (name b') (val b'))
            (foldl (fun m b => insert_new m (name b) (val b)) (insert_new m (name b') (val b')) bs))
      by (apply ext_fold; auto).
    apply (ext_keep _ _ _ _ _ Q). rewrite insert_new_fresh by assumption. apply lookup_insert.
  - apply elem_of_cons in Hb as [->|Hb]; [congruence|]. apply IH; auto.
    + unfold insert_new. destruct (m !! name b'); [assumption|]. now rewrite lookup_insert_ne by congruence.
    + intros b'' Hb''. apply Hu. now right.
Qed.

(** Strings. *)
Lemma append_inj (p a b : string) : p +:+ a = p +:+ b -> a = b.
Proof. induction p as [|c p IH]; simpl; intro H; [exact H|]. injection H as H. auto. Qed.

Lemma split_slash (v w a b : string) :
  no_slash v -> no_slash w -> v +:+ "/" +:+ a = w +:+ "/" +:+ b -> v = w /\ a = b.
Proof.
  revert w. induction v as [|c v IH]; intros [|d w] Hv Hw; simpl; intro H.
  - injection H as H. auto.
  - injection H as <- H. exfalso. apply Hw. simpl. auto.
  - injection H as -> H. exfalso. apply Hv. simpl. auto.
  - injection H as <- H. destruct (IH w) as [-> ->]; auto.
    + intro Hi. apply Hv. now right.
    + intro Hi. apply Hw. now right.
Qed.

Lemma no_slash_middle v a : ~ no_slash (v +:+ "/" +:+ a).
Proof.
  intro H. apply H. induction v as [|c v IH]; simpl; [auto|]. right. apply IH.
  intro Hi. apply H. now right.
Qed.

Lemma no_slash_derivative v a : ~ no_slash ("derivatives/" +:+ v +:+ "/" +:+ a).
Proof. intro H. apply H. simpl. do 11 right. auto. Qed.

Lemma prefix_integral v : is_integral v = true -> exists w, v = integral_prefix +:+ w.
Proof.
  unfold is_integral, integral_prefix.
  generalize "integral_quantities.". intro p. revert v.
  induction p as [|c p IH]; intros v H; [exists v; reflexivity|].
  destruct v as [|d v]; simpl in H; [discriminate|].
  destruct (ascii_dec c d) as [->|]; [|discriminate].
  destruct (IH v H) as [w ->]. now exists w.
Qed.

Lemma no_slash_laptime : no_slash "laptime".
Proof. intro H. simpl in H. intuition discriminate. Qed.

Section Proofs.
Context {K F T N : Type}.
Implicit Types (s : store K F T N) (n : string) (r : laptime_run N).

(** Scalar and vector names written by a run. *)
Definition scalar_writes r n : Prop :=
  ("laptime" ∈ lr_variables r /\
   (n = lr_prefix r +:+ "laptime" \/
    (lr_sensitivity r = true /\ exists a, a ∈ lr_aliases r /\ n = derivative_name (lr_prefix r) "laptime" a)))
  \/ exists v, v ∈ integral_variables r /\ n = lr_prefix r +:+ v.

Definition vector_writes r n : Prop :=
  exists v, v ∈ vector_variables r /\
  (n = lr_prefix r +:+ v \/
   (lr_sensitivity r = true /\ exists a, a ∈ lr_aliases r /\ n = derivative_name (lr_prefix r) v a)).

Lemma elem_filter (f : string -> bool) l v : v ∈ List.filter f l <-> v ∈ l /\ f v = true.
Proof. rewrite !elem_of_list_In. apply filter_In. Qed.

Lemma integral_vars_spec r v :
  v ∈ integral_variables r <-> v ∈ lr_variables r /\ v <> "laptime" /\ is_integral v = true.
Proof.
  unfold integral_variables. rewrite elem_filter, andb_true_iff, negb_true_iff, String.eqb_neq. tauto.
Qed.
Lemma vector_vars_spec r v :
  v ∈ vector_variables r <-> v ∈ lr_variables r /\ v <> "laptime" /\ is_integral v = false.
Proof.
  unfold vector_variables. rewrite elem_filter, andb_true_iff, !negb_true_iff, String.eqb_neq. tauto.
Qed.

Lemma scalar_writes_laptime r n : scalar_writes r n -> laptime_writes r n.
Proof.
  intros [[H1 H2]|(v & H1 & ->)].
  - exists "laptime". split; [assumption|]. destruct H2 as [->|(E & a & Ha & ->)]; eauto 6.
  - apply integral_vars_spec in H1 as (H1 & _). exists v; auto.
Qed.
Lemma vector_writes_laptime r n : vector_writes r n -> laptime_writes r n.
Proof.
  intros (v & H1 & H2). apply vector_vars_spec in H1 as (H1 & _). exists v. split; [assumption|].
  destruct H2 as [->|(E & a & Ha & ->)]; eauto 6.
Qed.

Lemma names_free_spec s r : laptime_names_free s r = true <->
  forall n, laptime_writes r n -> exists_in_tables s n = false.
Proof.
  unfold laptime_names_free. rewrite forallb_forall. split.
  - intros H n (v & Hv & Hn). apply elem_of_list_In in Hv. specialize (H v Hv).
    apply andb_true_iff in H as [H1 H2]. apply negb_true_iff in H1.
    destruct Hn as [->|(E & a & Ha & ->)]; [assumption|].
    rewrite E in H2. simpl in H2. rewrite forallb_forall in H2.
    apply elem_of_list_In in Ha. apply negb_true_iff, (H2 a Ha).
  - intros H v Hv. apply elem_of_list_In in Hv. apply andb_true_iff. split.
    + apply negb_true_iff, H. exists v; auto.
    + destruct (lr_sensitivity r) eqn:E; [simpl|reflexivity]. rewrite forallb_forall.
      intros a Ha. apply elem_of_list_In in Ha. apply negb_true_iff, H.
      exists v. split; [assumption|]. right. eauto.
Qed.

Lemma save_laptime_ext r (m : gmap string N) : ext (scalar_writes r) m (save_laptime r m).
Proof.
  unfold save_laptime. destruct (existsb _ _) eqn:E; [|apply ext_refl].
  apply existsb_exists in E as (v & Hv & E). apply String.eqb_eq in E as <-.
  apply elem_of_list_In in Hv.
  assert (E1 : ext (scalar_writes r) m (insert_new m (lr_prefix r +:+ "laptime") (lr_laptime r))).
  { apply ext_new. left; auto. }
  destruct (lr_sensitivity r) eqn:Es; [|exact E1].
  eapply ext_trans; [exact E1|].
  apply (ext_fold (scalar_writes r) (fun ia : nat * string => derivative_name (lr_prefix r) "laptime" ia.2)
    (fun ia => lr_dlaptime r ia.1)).
  intros [i a] Hb. apply elem_of_lookup_imap in Hb as (j & x & Hb & Hx).
  injection Hb as -> ->. simpl.
  left. split; [assumption|]. right. split; [exact Es|]. exists x. split; [|reflexivity].
  eapply elem_of_list_lookup_2; eauto.
Qed.

Lemma save_integrals_ext r vs : forall (m m' : gmap string N) ok,
  (forall v, v ∈ vs -> v ∈ integral_variables r) ->
  save_integrals r vs m = (m', ok) -> ext (scalar_writes r) m m'.
Proof.
  induction vs as [|v vs IH]; intros m m' ok H; simpl.
  - intros [= <- <-]. apply ext_refl.
  - destruct (lr_integral r (integral_name v)) as [x|].
    + intro E. eapply ext_trans; [|eapply IH; [|exact E]; intros; apply H; now right].
      apply ext_new. right. exists v. split; [apply H; left|reflexivity].
    + intros [= <- <-]. apply ext_refl.
Qed.

Lemma save_vectors_ext r data (m : gmap string (list N)) :
  (forall v l, (v, l) ∈ data -> v ∈ vector_variables r) ->
  ext (vector_writes r) m (save_vectors r data m).
Proof.
  intro H. unfold save_vectors.
  apply (ext_fold (vector_writes r) (fun vl : string * list N => lr_prefix r +:+ vl.1) snd).
  intros [v l] Hb. exists v. split; [eapply H; eauto|]. now left.
Qed.

Lemma save_sens_ext r vs : forall (m : gmap string (list N)),
  (forall v, v ∈ vs -> v ∈ vector_variables r) ->
  ext (vector_writes r) m (save_sensitivities r vs m).
Proof.
  unfold save_sensitivities. destruct (lr_sensitivity r) eqn:Es; [|intros; apply ext_refl].
  induction vs as [|v vs IH]; intros m H; simpl; [apply ext_refl|].
  eapply ext_trans; [|apply IH; intros; apply H; now right].
  apply (ext_fold (vector_writes r) (fun ia : nat * string => derivative_name (lr_prefix r) v ia.2)
    (fun ia => lr_dvector r v ia.1)).
  intros [i a] Hb. apply elem_of_lookup_imap in Hb as (j & x & Hb & Hx).
  injection Hb as -> ->. simpl.
  exists v. split; [apply H; left|]. right. split; [exact Es|]. exists x. split; [|reflexivity].
  eapply elem_of_list_lookup_2; eauto.
Qed.

Lemma compute_vectors_in r vs : forall data, compute_vectors r vs = Some data ->
  (forall v l, (v, l) ∈ data -> v ∈ vs /\ lr_vector r v = Some l) /\
  (forall v, v ∈ vs -> exists l, (v, l) ∈ data /\ lr_vector r v = Some l).
Proof.
  induction vs as [|v vs IH]; intros data; simpl.
  - intros [= <-]. split; intros; [now apply elem_of_nil in H | now apply elem_of_nil in H].
  - destruct (lr_vector r v) as [l|] eqn:E; [|discriminate].
    destruct (compute_vectors r vs) as [rest|] eqn:Er; [|discriminate]. intros [= <-].
    destruct (IH rest eq_refl) as [A B]. split.
    + intros w l' H. apply elem_of_cons in H as [[= -> ->]|H].
      * split; [left|assumption].
      * destruct (A _ _ H). split; [now right|assumption].
    + intros w H. apply elem_of_cons in H as [->|H].
      * exists l. split; [left|assumption].
      * destruct (B _ H) as (l' & H1 & H2). exists l'. split; [now right|assumption].
Qed.

(** What the output phase may change. *)
Lemma store_laptime_ext s r s' res :
  store_laptime s r = (s', res) ->
  t_kart s' = t_kart s /\ t_f1 s' = t_f1 s /\ t_track s' = t_track s /\
  ext (scalar_writes r) (t_scalar s) (t_scalar s') /\
  ext (vector_writes r) (t_vector s) (t_vector s').
Proof.
  unfold store_laptime. destruct (laptime_names_free s r).
  2: { intros [= <- <-]. repeat split; try apply ext_refl. }
  simpl. destruct (save_integrals r (integral_variables r) (save_laptime r (t_scalar s))) as [m2 ok] eqn:Ei.
  assert (E2 : ext (scalar_writes r) (t_scalar s) m2).
  { eapply ext_trans; [apply save_laptime_ext|]. eapply save_integrals_ext; [|exact Ei]; auto. }
  destruct ok.
  2: { intros [= <- <-]. simpl. repeat (split; [reflexivity || apply ext_refl || assumption|]). apply ext_refl. }
  destruct (compute_vectors r (vector_variables r)) as [data|] eqn:Ec.
  2: { intros [= <- <-]. simpl. repeat (split; [reflexivity || apply ext_refl || assumption|]). apply ext_refl. }
  intros [= <- <-]. simpl. repeat (split; [reflexivity || assumption|]).
  eapply ext_trans; [apply save_vectors_ext | apply save_sens_ext; auto].
  intros v l Hv. now apply (compute_vectors_in r _ data Ec) in Hv.
Qed.

(** Pointwise: at most one of the five tables has the name. *)
Lemma one_kind_pw s : one_kind s <-> exists m : gmap string (var K F T N), represents s m.
Proof.
  split; [|intros [m Hm]; eapply represents_one_kind; eauto].
  intro H.
  set (f := fun n => match t_kart s !! n with Some k => Some (VarKart k) | None =>
                     match t_f1 s !! n with Some k => Some (VarF1 k) | None =>
                     match t_track s !! n with Some k => Some (VarTrack k) | None =>
                     match t_scalar s !! n with Some k => Some (VarScalar k) | None =>
                     match t_vector s !! n with Some k => Some (VarVector k) | None => None
                     end end end end end).
  exists ((VarKart <$> t_kart s) ∪ ((VarF1 <$> t_f1 s) ∪ ((VarTrack <$> t_track s) ∪
          ((VarScalar <$> t_scalar s) ∪ (VarVector <$> t_vector s))))).
  assert (Hf : forall n, ((VarKart <$> t_kart s) ∪ ((VarF1 <$> t_f1 s) ∪ ((VarTrack <$> t_track s) ∪
          ((VarScalar <$> t_scalar s) ∪ (VarVector <$> t_vector s))))) !! n = f n).
  { intro n. unfold f. rewrite !lookup_union, !lookup_fmap.
    destruct (t_kart s !! n), (t_f1 s !! n), (t_track s !! n), (t_scalar s !! n), (t_vector s !! n);
      reflexivity. }
  intros n v. rewrite Hf. unfold f. clear f Hf.
  split.
  - destruct (t_kart s !! n) eqn:E1; [intros [= <-]; exact E1|].
    destruct (t_f1 s !! n) eqn:E2; [intros [= <-]; exact E2|].
    destruct (t_track s !! n) eqn:E3; [intros [= <-]; exact E3|].
    destruct (t_scalar s !! n) eqn:E4; [intros [= <-]; exact E4|].
    destruct (t_vector s !! n) eqn:E5; [intros [= <-]; exact E5|discriminate].
  - intro Hv.
    destruct (t_kart s !! n) eqn:E1; [f_equal; apply (H n); assumption|].
    destruct (t_f1 s !! n) eqn:E2; [f_equal; apply (H n); assumption|].
    destruct (t_track s !! n) eqn:E3; [f_equal; apply (H n); assumption|].
    destruct (t_scalar s !! n) eqn:E4; [f_equal; apply (H n); assumption|].
    destruct (t_vector s !! n) eqn:E5; [f_equal; apply (H n); assumption|].
    destruct v; simpl in Hv; congruence.
Qed.

Lemma exists_false s n : exists_in_tables s n = false <->
  t_kart s !! n = None /\ t_f1 s !! n = None /\ t_track s !! n = None /\
  t_scalar s !! n = None /\ t_vector s !! n = None.
Proof.
  unfold exists_in_tables, has.
  destruct (t_kart s !! n), (t_f1 s !! n), (t_track s !! n), (t_scalar s !! n), (t_vector s !! n);
    simpl; split; intros; try discriminate; intuition discriminate.
Qed.

Lemma exists_free s n : exists_in_tables s n = false <-> free s n.
Proof.
  rewrite exists_false. unfold free. split.
  - intros (A & B & C & D & E) v. destruct v; simpl; congruence.
  - intro H. repeat split.
    + destruct (t_kart s !! n) as [x|] eqn:E; [destruct (H (VarKart x) E)|reflexivity].
    + destruct (t_f1 s !! n) as [x|] eqn:E; [destruct (H (VarF1 x) E)|reflexivity].
    + destruct (t_track s !! n) as [x|] eqn:E; [destruct (H (VarTrack x) E)|reflexivity].
    + destruct (t_scalar s !! n) as [x|] eqn:E; [destruct (H (VarScalar x) E)|reflexivity].
    + destruct (t_vector s !! n) as [x|] eqn:E; [destruct (H (VarVector x) E)|reflexivity].
Qed.

(** Scalar and vector outputs have different names. *)
Lemma writes_disjoint r n :
  (forall v, v ∈ vector_variables r -> no_slash v) ->
  scalar_writes r n -> vector_writes r n -> False.
Proof.
  intros Hns Hs (v & Hv & Hn). pose proof (Hns v Hv) as Nv.
  apply vector_vars_spec in Hv as (_ & Vl & Vi).
  destruct Hs as [[_ [->|(_ & a & _ & ->)]]|(w & Hw & ->)].
  - destruct Hn as [Hn|(_ & b & _ & Hn)].
    + apply append_inj in Hn. congruence.
    + unfold derivative_name in Hn. apply append_inj in Hn. discriminate.
  - unfold derivative_name in Hn. destruct Hn as [Hn|(_ & b & _ & Hn)].
    + apply append_inj in Hn. subst v. now apply no_slash_derivative in Nv.
    + unfold derivative_name in Hn. apply append_inj in Hn.
      apply (append_inj "derivatives/" ("laptime" +:+ "/" +:+ a)) in Hn.
      apply split_slash in Hn as [Hn _]; auto using no_slash_laptime.
  - apply integral_vars_spec in Hw as (_ & _ & Wi). destruct Hn as [Hn|(_ & b & _ & Hn)].
    + apply append_inj in Hn. congruence.
    + unfold derivative_name in Hn. apply append_inj in Hn.
      apply prefix_integral in Wi as [w' ->]. discriminate.
Qed.

Lemma store_laptime_one_kind s r s' res :
  (forall v l, lr_vector r v = Some l -> no_slash v) ->
  one_kind s -> store_laptime s r = (s', res) -> one_kind s'.
Proof.
  intros Hns HO HE.
  unfold store_laptime in HE. destruct (laptime_names_free s r) eqn:Ef.
  2: { injection HE as <- <-; assumption. }
  pose proof (proj1 (names_free_spec s r) Ef) as Hfree.
  simpl in HE. destruct (save_integrals r (integral_variables r) (save_laptime r (t_scalar s))) as [m2 ok] eqn:Ei.
  assert (E2 : ext (scalar_writes r) (t_scalar s) m2).
  { eapply ext_trans; [apply save_laptime_ext|]. eapply save_integrals_ext; [|exact Ei]; auto. }
  assert (key : forall mv, ext (vector_writes r) (t_vector s) mv ->
     (forall n, scalar_writes r n -> vector_writes r n -> mv !! n = t_vector s !! n) ->
     one_kind (Store (t_kart s) (t_f1 s) (t_track s) m2 mv)).
  { intros mv Emv Hd n v w Hv Hw.
    destruct (E2 n) as [Q2|[W2 _]]; destruct (Emv n) as [Q3|[W3 _]].
    - apply (HO n); [destruct v | destruct w]; simpl in *; congruence.
    - pose proof (Hfree n (vector_writes_laptime r n W3)) as Hf.
      apply exists_false in Hf as (F1 & F2 & F3 & F4 & F5).
      destruct v, w; simpl in *; congruence.
    - pose proof (Hfree n (scalar_writes_laptime r n W2)) as Hf.
      apply exists_false in Hf as (F1 & F2 & F3 & F4 & F5).
      destruct v, w; simpl in *; congruence.
    - pose proof (Hfree n (scalar_writes_laptime r n W2)) as Hf.
      apply exists_false in Hf as (F1 & F2 & F3 & F4 & F5).
      specialize (Hd n W2 W3).
      destruct v, w; simpl in *; congruence. }
  destruct ok.
  2: { injection HE as <- <-. apply key; [apply ext_refl | auto]. }
  destruct (compute_vectors r (vector_variables r)) as [data|] eqn:Ec.
  2: { injection HE as <- <-. apply key; [apply ext_refl | auto]. }
  injection HE as <- <-. destruct (compute_vectors_in r _ data Ec) as [C1 C2]. apply key.
  - eapply ext_trans; [apply save_vectors_ext | apply save_sens_ext; auto].
    intros v l Hv. now apply C1 in Hv.
  - intros n Ws Wv. exfalso. eapply writes_disjoint; eauto.
    intros v Hv. destruct (C2 v Hv) as (l & _ & Hl). eauto.
Qed.

(** *** Invariant over histories *)

Lemma one_kind_rep s : one_kind s -> exists m : gmap string (var K F T N), forall n, rep s n (m !! n).
Proof. intro H. apply one_kind_pw in H as [m Hm]. exists m. now apply (proj1 (represents_pw _ _)). Qed.

Lemma one_kind_kart s n k k0 : one_kind s -> t_kart s !! n = Some k0 ->
  one_kind (set_kart s (<[n := k]> (t_kart s))).
Proof.
  intros H Hk. apply one_kind_pw in H as [m Hm]. apply one_kind_pw.
  assert (m !! n = Some (VarKart k0)) by now apply Hm.
  exists (<[n := VarKart k]> m). apply (proj2 (represents_pw _ _)), rep_set_kart; [|eauto].
  now apply (proj1 (represents_pw _ _)).
Qed.
Lemma one_kind_f1 s n k k0 : one_kind s -> t_f1 s !! n = Some k0 ->
  one_kind (set_f1 s (<[n := k]> (t_f1 s))).
Proof.
  intros H Hk. apply one_kind_pw in H as [m Hm]. apply one_kind_pw.
  assert (m !! n = Some (VarF1 k0)) by now apply Hm.
  exists (<[n := VarF1 k]> m). apply (proj2 (represents_pw _ _)), rep_set_f1; [|eauto].
  now apply (proj1 (represents_pw _ _)).
Qed.

Lemma erase_one_kind s re : one_kind s ->
  one_kind (Store (erase_matching re (t_kart s)) (erase_matching re (t_f1 s))
             (erase_matching re (t_track s)) (erase_matching re (t_scalar s))
             (erase_matching re (t_vector s))).
Proof.
  intros H n v w Hv Hw. apply (H n).
  - destruct v; simpl in *; rewrite erase_matching_lookup in Hv; destruct (matches_name re n); congruence.
  - destruct w; simpl in *; rewrite erase_matching_lookup in Hw; destruct (matches_name re n); congruence.
Qed.

Lemma supported_one_kind e s c s' res :
  one_kind s -> supported c -> step e s c = (s', res) -> one_kind s'.
Proof.
  intros H Hs E. apply one_kind_pw in H as [m Hm].
  destruct (step_refines e s m c s' res Hm Hs E) as (m' & _ & Hm').
  eapply represents_one_kind; eauto.
Qed.

Lemma step_one_kind e s c s' res :
  plain_outputs c -> not_preprocessor c -> one_kind s -> step e s c = (s', res) -> one_kind s'.
Proof.
  intros Hp Hn HO E.
  destruct c; try (eapply supported_one_kind; [exact HO| |exact E]; exact I);
    try (injection E as <- <-; exact HO); simpl in E.
  - unfold create_vector in E. destruct (exists_in_tables s n) eqn:Ex.
    { injection E as <- <-; exact HO. }
    destruct (Z.ltb_spec len 0).
    { simpl in E. injection E as <- <-; exact HO. }
    destruct (Z.ltb_spec (Z.of_nat (length data)) len).
    { simpl in E. injection E as <- <-; exact HO. }
    eapply (supported_one_kind e s (CreateVector n len data)); [exact HO| split; assumption|].
    simpl. unfold create_vector. rewrite Ex.
    destruct (Z.ltb_spec len 0); [lia|].
    destruct (Z.ltb_spec (Z.of_nat (length data)) len); [lia|]. exact E.
  - unfold delete_variable in E. destruct (compile pattern); injection E as <- <-;
      [now apply erase_one_kind|exact HO|exact HO].
  - unfold optimal_laptime in E. simpl in Hp.
    destruct (t_kart s !! n) as [k|] eqn:Ek.
    { destruct (t_track s !! tr) as [t|]; [|injection E as <- <-; exact HO].
      destruct (negb (lr_options r)); [injection E as <- <-; exact HO|].
      destruct (e_kart_track e k t) as [k' b].
      assert (one_kind (set_kart s (<[n:=k']> (t_kart s)))) by (eapply one_kind_kart; eauto).
      destruct (b && lr_computed r); [eapply store_laptime_one_kind; eauto|].
      injection E as <- <-; assumption. }
    destruct (t_f1 s !! n) as [k|] eqn:Ef; [|injection E as <- <-; exact HO].
    destruct (t_track s !! tr) as [t|]; [|injection E as <- <-; exact HO].
    destruct (negb (lr_options r)); [injection E as <- <-; exact HO|].
    destruct (e_f1_track e k t) as [k' b].
    assert (one_kind (set_f1 s (<[n:=k']> (t_f1 s)))) by (eapply one_kind_f1; eauto).
    destruct (b && lr_computed r); [eapply store_laptime_one_kind; eauto|].
    injection E as <- <-; assumption.
  - destruct Hn.
Qed.

Lemma run_one_kind e cs : forall s s' rs,
  Forall plain_outputs cs -> Forall not_preprocessor cs -> one_kind s ->
  run e s cs = (s', rs) -> one_kind s'.
Proof.
  induction cs as [|c cs IH]; intros s s' rs H1 H2 HO; simpl.
  - intros [= <- <-]. exact HO.
  - inversion H1; inversion H2; subst.
    destruct (step e s c) as [s1 r] eqn:Es. destruct (run e s1 cs) as [s2 rs2] eqn:Er.
    intros [= <- <-]. eapply IH; [| | |exact Er]; eauto using step_one_kind.
Qed.

Lemma empty_one_kind : one_kind (empty_store : store K F T N).
Proof. intros n v w Hv. destruct v; simpl in Hv; rewrite lookup_empty in Hv; discriminate. Qed.

(** *** Frame *)

Definition same_at s s' n : Prop :=
  t_kart s' !! n = t_kart s !! n /\ t_f1 s' !! n = t_f1 s !! n /\ t_track s' !! n = t_track s !! n /\
  t_scalar s' !! n = t_scalar s !! n /\ t_vector s' !! n = t_vector s !! n.

Lemma same_at_holds s s' n : same_at s s' n -> forall v, holds s' n v <-> holds s n v.
Proof. intros (A & B & C & D & E) v. destruct v; simpl; congruence || (split; congruence). Qed.

Lemma same_at_refl s n : same_at s s n.
Proof. repeat split. Qed.

Lemma insert_new_ne {A} (m : gmap string A) n n' a : n' <> n -> insert_new m n a !! n' = m !! n'.
Proof. intro. unfold insert_new. destruct (m !! n); [reflexivity|]. now rewrite lookup_insert_ne by congruence. Qed.

Lemma save_prep_ext prefix out vs : forall (m m' : gmap string (list N)) ok,
  save_prep_vectors prefix out vs m = (m', ok) ->
  ext (fun n => exists v, v ∈ vs /\ n = prefix +:+ v) m m'.
Proof.
  induction vs as [|v vs IH]; intros m m' ok; simpl.
  - intros [= <- <-]. apply ext_refl.
  - destruct (has m (prefix +:+ v)); [intros [= <- <-]; apply ext_refl|].
    intro E. eapply ext_trans; [apply ext_new|].
    + exists v. split; [left|reflexivity].
    + eapply ext_mono; [|eapply IH, E]. intros n (w & Hw & ->). exists w. split; [now right|reflexivity].
Qed.

Lemma prep_track_frame s (pr : prep_run T N) s1 ok n : pr_table pr <> Some n ->
  prep_track_phase s pr = (s1, ok) -> same_at s s1 n.
Proof.
  unfold prep_track_phase. intros Hn E.
  destruct (pr_table pr) as [n0|]; [|injection E as <- <-; apply same_at_refl].
  destruct (has (t_track s) n0); injection E as <- <-; [apply same_at_refl|].
  repeat split; simpl. apply insert_new_ne. congruence.
Qed.

Lemma same_at_trans s1 s2 s3 n : same_at s1 s2 n -> same_at s2 s3 n -> same_at s1 s3 n.
Proof. intros (A & B & C & D & G) (A' & B' & C' & D' & G'). repeat split; congruence. Qed.

Lemma prep_vector_frame s (pr : prep_run T N) s1 res n : ~ prep_writes pr n ->
  prep_vector_phase s pr = (s1, res) -> same_at s s1 n.
Proof.
  unfold prep_vector_phase. intros Hn E.
  destruct (pr_prefix pr) as [p|] eqn:Ep; [|injection E as <- <-; apply same_at_refl].
  destruct (save_prep_vectors _ _ _ _) as [m ok] eqn:Es. injection E as <- <-.
  repeat split. simpl. apply save_prep_ext in Es. apply (ext_frame _ _ _ _ Es).
  intros (v & Hv & ->). apply Hn. right. exists p, v. auto.
Qed.

Lemma prep_frame s (pr : prep_run T N) s1 res n : ~ prep_writes pr n ->
  circuit_preprocessor s pr = (s1, res) -> same_at s s1 n.
Proof.
  unfold circuit_preprocessor. intros Hn E.
  destruct (pr_computed pr); [|injection E as <- <-; apply same_at_refl].
  destruct (prep_track_phase s pr) as [s0 ok] eqn:Et.
  assert (A : same_at s s0 n). { eapply prep_track_frame; [|exact Et]. intro. apply Hn. now left. }
  destruct ok; [|injection E as <- <-; exact A].
  destruct (pr_xml pr) as [[|]|]; [|injection E as <- <-; exact A|];
    (eapply same_at_trans; [exact A|eapply prep_vector_frame; eauto]).
Qed.

Lemma step_frame e s c s' res n : unrelated c n -> step e s c = (s', res) -> same_at s s' n.
Proof.
  intros HU E.
  destruct c as [m file|m ty|m file|m x|m len data|a b|a b|p|m|m|m len|m|m len v|m|m p x|m p al x
    |m p al x g|m tr|m side sd wd|m tr lr|pr|m tr uc ok|m ok|m ok]; simpl in HU, E; try (injection E as <- <-; apply same_at_refl).
  - unfold create_vehicle_from_xml in E. repeat case_match; simplify_eq; try apply same_at_refl;
      repeat split; simpl; now apply insert_new_ne.
  - unfold create_vehicle_empty in E. repeat case_match; simplify_eq; try apply same_at_refl;
      repeat split; simpl; now apply insert_new_ne.
  - unfold create_track_from_xml in E. repeat case_match; simplify_eq; try apply same_at_refl;
      repeat split; simpl; now apply insert_new_ne.
  - unfold create_scalar in E. repeat case_match; simplify_eq; try apply same_at_refl;
      repeat split; simpl; now apply insert_new_ne.
  - unfold create_vector in E. repeat case_match; simplify_eq; try apply same_at_refl;
      repeat split; simpl; now apply insert_new_ne.
  - unfold copy_variable in E. repeat case_match; simplify_eq; try apply same_at_refl;
      repeat split; simpl; now apply insert_new_ne.
  - destruct HU as [Ha Hb].
    unfold move_variable in E. repeat case_match; simplify_eq; try apply same_at_refl;
      repeat split; simpl; rewrite lookup_delete_ne by congruence; now apply insert_new_ne.
  - destruct HU as [Hp Hg]. destruct (compile_glob p Hp) as (re & Ec & Hre).
    unfold delete_variable in E. rewrite Ec in E. injection E as <- <-.
    assert (matches_name re n = false) by (apply not_true_iff_false; rewrite Hre; exact Hg).
    repeat split; simpl; rewrite erase_matching_lookup; now rewrite H.
  - unfold vehicle_set_parameter in E. repeat case_match; simplify_eq; try apply same_at_refl;
      repeat split; simpl; now rewrite lookup_insert_ne by congruence.
  - unfold vehicle_declare_constant in E. repeat case_match; simplify_eq; try apply same_at_refl;
      repeat split; simpl; now rewrite lookup_insert_ne by congruence.
  - unfold vehicle_declare_variable in E. repeat case_match; simplify_eq; try apply same_at_refl;
      repeat split; simpl; now rewrite lookup_insert_ne by congruence.
  - unfold vehicle_change_track in E. repeat case_match; simplify_eq; try apply same_at_refl;
      repeat split; simpl; now rewrite lookup_insert_ne by congruence.
  - unfold track_set_limit in E. repeat case_match; simplify_eq; try apply same_at_refl;
      repeat split; simpl; now rewrite lookup_insert_ne by congruence.
  - destruct HU as [Hv Hw].
    assert (key : forall s0, same_at s s0 n -> store_laptime s0 lr = (s', res) -> same_at s s' n).
    { intros s0 (A & B & C & D & G) Es.
      destruct (store_laptime_ext s0 lr s' res Es) as (A' & B' & C' & D' & G').
      repeat split; try congruence.
      - rewrite <- D. apply (ext_frame _ _ _ _ D'). intro. now apply Hw, scalar_writes_laptime.
      - rewrite <- G. apply (ext_frame _ _ _ _ G'). intro. now apply Hw, vector_writes_laptime. }
    unfold optimal_laptime in E. repeat case_match; simplify_eq; try apply same_at_refl;
      try (eapply key; [|exact E]);
      repeat split; simpl; now rewrite lookup_insert_ne by congruence.
  - eapply prep_frame; eauto.
  - unfold propagate_vehicle in E. repeat case_match; simplify_eq; try apply same_at_refl;
      repeat split; simpl; now rewrite lookup_insert_ne by congruence.
  - unfold vehicle_solve in E. repeat case_match; simplify_eq; apply same_at_refl.
  - unfold vehicle_solve in E. repeat case_match; simplify_eq; apply same_at_refl.
Qed.

Lemma run_frame e cs n : forall s s' rs,
  Forall (fun c => unrelated c n) cs -> run e s cs = (s', rs) ->
  forall v, holds s' n v <-> holds s n v.
Proof.
  induction cs as [|c cs IH]; intros s s' rs H; simpl.
  - intros [= <- <-]. reflexivity.
  - inversion H; subst. destruct (step e s c) as [s1 r] eqn:Es. destruct (run e s1 cs) as [s2 rs2] eqn:Er.
    intros [= <- <-] v. rewrite (IH s1 s2 rs2) by eauto.
    apply same_at_holds. eapply step_frame; eauto.
Qed.

End Proofs.
