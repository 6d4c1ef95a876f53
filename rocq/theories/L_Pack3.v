(** Unpacking of the NLP vector, and its relation with packing. *)
From Coq Require Import QArith Bool Arith Lia List.
From Verif Require Import M_Controls S_Controls L_Controls M_Laptime S_Laptime L_Pack L_Pack2.
Import ListNotations.
Local Open Scope nat_scope.

Lemma load_input_load1 x i j st : load_input x i j st = load1 x (SIn i j) st.
Proof.
  destruct st as [k [ins cs]]. unfold load_input, load1. cbn [fst snd set_slot].
  destruct (rd x k); cbn [bind]; try reflexivity. destruct (rd ins i); cbn [bind]; try reflexivity.
  destruct (set_at _ _ _); cbn [bind]; try reflexivity. destruct (set_at _ _ _); reflexivity.
Qed.
Lemma load_value_load1 x i j st : load_value x i j st = load1 x (SVal j i) st.
Proof.
  destruct st as [k [ins cs]]. unfold load_value, load1. cbn [fst snd set_slot].
  destruct (rd x k); cbn [bind]; try reflexivity. destruct (rd cs j); cbn [bind]; try reflexivity.
  destruct (set_at _ _ _); cbn [bind]; try reflexivity. destruct (set_at _ _ _); reflexivity.
Qed.
Lemma load_rate_load1 x i j st : load_rate x i j st = load1 x (SRate j i) st.
Proof.
  destruct st as [k [ins cs]]. unfold load_rate, load1. cbn [fst snd set_slot].
  destruct (rd x k); cbn [bind]; try reflexivity. destruct (rd cs j); cbn [bind]; try reflexivity.
  destruct (set_at _ _ _); cbn [bind]; try reflexivity. destruct (set_at _ _ _); reflexivity.
Qed.

Lemma for_each_single {A St} (body : A -> St -> res St) a st : for_each [a] body st = body a st.
Proof. cbn. destruct (body a st); reflexivity. Qed.

Section Unpacking.
Context (m : car) (x : list Q) (direct : bool) (ins0 : list (list Q)) (cs : list control_variable).
Context (Hcs : length cs = n_controls m).
Notation P := (fun st : unpacked => same_shape (ins0, cs) (snd st)).

Lemma P_step : forall sl st st', P st -> load1 x sl st = Ok st' -> P st'.
Proof. intros sl st st'. apply load1_shape. Qed.

Lemma shape_control st j : P st -> j < n_controls m ->
  exists c c', nth_error cs j = Some c /\ rd (snd (snd st)) j = Ok c' /\ control_shape c c'.
Proof.
  intros (_ & H2 & _ & H4) Hj. cbn in *.
  destruct (rd_ok cs j) as (c & Ec & _); [lia|].
  destruct (nth_error_transport _ _ _ _ H2 Ec) as [c' Ec'].
  exists c, c'. split; [exact Ec|]. split; [apply rd_inv; exact Ec'|]. eapply H4; eauto.
Qed.

Lemma if_full_loads load mk i j st :
  (forall st, load i j st = load1 x (mk j) st) -> P st -> j < n_controls m ->
  if_full load i j st = for_each (if is_full cs j then [mk j] else []) (load1 x) st.
Proof.
  intros Hl Hp Hj. destruct (shape_control st j Hp Hj) as (c & c' & Ec & Er & (K & _)).
  unfold if_full, is_full. rewrite Er, Ec. cbn [bind]. rewrite <- K.
  destruct (kind_eqb (c_kind c) FULL_MESH); [|reflexivity]. rewrite for_each_single. apply Hl.
Qed.

Lemma load_point_loads i st : in_time m + 1 < n_inputs m -> P st ->
  load_point m x direct i st = for_each (point_slots m direct cs i) (load1 x) st.
Proof.
  intros Ht Hp. unfold load_point, point_slots, row_slots. rewrite <- app_assoc, for_each_app. unfold for_range.
  rewrite (loop_loads x P _ _ _ (fun j => [SIn i j])); [|exact P_step| |exact Hp].
  2:{ intros j st' _ _. rewrite for_each_single. apply load_input_load1. }
  rewrite flat_map_single, Nat.sub_0_r. apply bind_ext. intros st1 E1.
  assert (Hp1 : P st1) by (exact (for_each_inv P _ _ _ _ P_step Hp E1)).
  rewrite for_each_app.
  rewrite (loop_loads x P _ _ _ (fun j => [SIn i j])); [|exact P_step| |exact Hp1].
  2:{ intros j st' _ _. rewrite for_each_single. apply load_input_load1. }
  rewrite flat_map_single. apply bind_ext. intros st2 E2.
  assert (Hp2 : P st2) by (exact (for_each_inv P _ _ _ _ P_step Hp1 E2)).
  rewrite for_each_app.
  rewrite (loop_loads x P _ _ _ (fun j => if is_full cs j then [SVal j i] else [])); [|exact P_step| |exact Hp2].
  2:{ intros j st' Hj Hp'. apply (if_full_loads _ (fun j => SVal j i)); [intros; apply load_value_load1|exact Hp'|lia]. }
  unfold full_slots. rewrite Nat.sub_0_r. apply bind_ext. intros st3 E3.
  assert (Hp3 : P st3) by (exact (for_each_inv P _ _ _ _ P_step Hp2 E3)).
  destruct direct; [reflexivity|].
  rewrite (loop_loads x P _ _ _ (fun j => if is_full cs j then [SRate j i] else [])); [|exact P_step| |exact Hp3].
  2:{ intros j st' Hj Hp'. apply (if_full_loads _ (fun j => SRate j i)); [intros; apply load_rate_load1|exact Hp'|lia]. }
  reflexivity.
Qed.

Lemma load_values_loads j k st : P st ->
  for_range 0 k (fun i => load_value x i j) st = for_each (map (SVal j) (seq 0 k)) (load1 x) st.
Proof.
  intros Hp. unfold for_range. rewrite (loop_loads x P _ _ _ (fun i => [SVal j i])); [|exact P_step| |exact Hp].
  - rewrite flat_map_single, Nat.sub_0_r. reflexivity.
  - intros i st' _ _. rewrite for_each_single. apply load_value_load1.
Qed.

Lemma load_rest_loads j st : P st -> j < n_controls m ->
  load_rest x j st = for_each (rest_slots cs j) (load1 x) st.
Proof.
  intros Hp Hj. destruct (shape_control st j Hp Hj) as (c & c' & Ec & Er & (K & _ & _ & Hv & _)).
  unfold load_rest, rest_slots. rewrite Er, Ec. cbn [bind]. rewrite <- K, <- Hv.
  destruct (c_kind c); try reflexivity; apply load_values_loads; exact Hp.
Qed.

Lemma unpack_loads closed n cf : in_time m + 1 < n_inputs m -> same_shape (ins0, cs) cf ->
  bind (for_range (offset closed) n (load_point m x direct) (0, cf)) (fun st => for_range 0 (n_controls m) (load_rest x) st)
  = for_each (slots m direct closed n cs) (load1 x) (0, cf).
Proof.
  intros Ht Hs. unfold slots, for_range. rewrite for_each_app.
  rewrite (loop_loads x P _ _ _ (point_slots m direct cs)); [|exact P_step| |exact Hs].
  2:{ intros i st' _ Hp. apply load_point_loads; assumption. }
  apply bind_ext. intros st1 E1.
  assert (Hp1 : P st1) by (exact (for_each_inv P _ _ (0, cf) _ P_step Hs E1)).
  rewrite (loop_loads x P _ _ _ (rest_slots cs)); [|exact P_step| |exact Hp1].
  2:{ intros j st' Hj Hp. apply load_rest_loads; [exact Hp|lia]. }
  rewrite Nat.sub_0_r. reflexivity.
Qed.
End Unpacking.

(** ** The initial point of open simulations *)
Definition set_pair (p : slot * Q) (cf : config) : res config := set_slot (fst p) (snd p) cf.

Lemma sets_ok : forall (ps : list (slot * Q)) cf,
  NoDup (map fst ps) -> (forall sl, In sl (map fst ps) -> exists w, get cf sl = Some w) ->
  exists cf', for_each ps set_pair cf = Ok cf' /\ same_shape cf cf' /\
    (forall sl, ~ In sl (map fst ps) -> get cf' sl = get cf sl) /\
    (forall sl v, In (sl, v) ps -> get cf' sl = Some v).
Proof.
  induction ps as [|[sl v] ps IH]; intros cf Hnd Hv; cbn [map fst] in *.
  - exists cf. split; [reflexivity|]. split; [apply same_shape_refl|]. split; [reflexivity|]. intros ? ? [].
  - inversion Hnd as [|? ? Hni Hnd']; subst.
    destruct (Hv sl (or_introl eq_refl)) as [w Ew].
    destruct (set_slot_ok sl v cf w Ew) as (cf1 & E1 & Hs1 & Hg1 & Ho1).
    destruct (IH cf1 Hnd') as (cf2 & E2 & Hs2 & Hn2 & Hp2).
    { intros sl' Hin. destruct (Hv sl' (or_intror Hin)) as [w' Ew']. eapply get_some_shape; eauto. }
    exists cf2. cbn [for_each]. unfold set_pair at 1. cbn [fst snd]. rewrite E1. cbn [bind].
    split; [exact E2|]. split; [eapply same_shape_trans; eauto|]. split.
    + intros sl' Hni'. rewrite Hn2 by (intros G; apply Hni'; right; exact G).
      apply Ho1. intros ->. apply Hni'. left; reflexivity.
    + intros sl' v' [E|Hin]; [|apply Hp2; exact Hin]. injection E as <- <-. rewrite Hn2 by exact Hni. exact Hg1.
Qed.

Definition start_pairs (direct : bool) (u0 du0 : list Q) (cs : list control_variable) (j : nat) : list (slot * Q) :=
  if is_full cs j then (SVal j 0, nth j u0 0%Q) :: (if direct then [] else [(SRate j 0, nth j du0 0%Q)]) else [].

Lemma rd_set_same {A} (l : list A) i a : i < length l -> exists l', set_at l i a = Ok l' /\ rd l' i = Ok a /\ length l' = length l /\
  forall b, exists l'', set_at l' i b = Ok l'' /\ set_at l i b = Ok l''.
Proof.
  intros H. destruct (set_at_ok l i a H) as (l' & E & Hl & Hn). exists l'. split; [exact E|]. split; [|split].
  - apply rd_inv. rewrite Hn, Nat.eqb_refl. reflexivity.
  - exact Hl.
  - intros b. destruct (set_at_ok l i b H) as (l1 & E1 & Hl1 & Hn1).
    assert (H' : i < length l') by lia. destruct (set_at_ok l' i b H') as (l2 & E2 & Hl2 & Hn2).
    exists l1. split; [|exact E1]. rewrite E2. f_equal.
    apply nth_ext with (d := b) (d' := b); [lia|]. intros k Hk.
    assert (Heq : nth_error l2 k = nth_error l1 k).
    { rewrite Hn2, Hn1. destruct (Nat.eqb_spec k i) as [->|Hne]; [reflexivity|]. rewrite Hn.
      destruct (Nat.eqb_spec k i); [contradiction|reflexivity]. }
    rewrite (nth_error_nth' l2 b) in Heq by lia. rewrite (nth_error_nth' l1 b) in Heq by lia. congruence.
Qed.

Section Start.
Context (m : car) (direct : bool) (n : nat) (ins0 : list (list Q)) (cs0 : list control_variable).
Context (F : facts direct m n ins0 cs0).
Context (q0 u0 du0 : list Q) (Hq : length q0 = n_inputs m) (Hu : length u0 = n_controls m).
Context (Hdu : direct = false -> length du0 = n_controls m).

Lemma start_control_pairs j ins cs : same_shape (ins0, cs0) (ins, cs) -> j < n_controls m ->
  bind (start_control direct u0 du0 j cs) (fun cs' => Ok (ins, cs')) = for_each (start_pairs direct u0 du0 cs0 j) set_pair (ins, cs).
Proof.
  intros Hs Hj. pose proof Hs as (_ & H2 & _ & H4). cbn in H2, H4. unfold start_control, start_pairs, is_full.
  destruct (rd_ok cs0 j) as (c0 & E0 & _). { rewrite (f_cs _ _ _ _ _ F). exact Hj. }
  destruct (nth_error_transport _ _ _ _ H2 E0) as [c Ec]. pose proof (H4 j c0 c E0 Ec) as (K & _ & _ & Hv & Hr).
  rewrite E0. assert (Erd : rd cs j = Ok c) by (apply rd_inv; exact Ec). rewrite Erd. cbn [bind]. rewrite <- K.
  destruct (kind_eqb (c_kind c0) FULL_MESH) eqn:KK; [|reflexivity]. apply kind_eqb_spec in KK.
  rewrite (rd_nth u0 j 0%Q) by lia. cbn [bind].
  assert (Hn : 2 <= n) by apply (f_n _ _ _ _ _ F).
  assert (Hlv : length (c_values c) = n). { rewrite <- Hv. apply (f_values _ _ _ _ _ F j c0 E0 KK). }
  destruct (set_at_ok (c_values c) 0 (nth j u0 0%Q)) as (vs & Evs & _); [lia|]. rewrite Evs. cbn [bind].
  assert (Hjl : j < length cs) by (apply nth_error_Some; congruence).
  assert (Hd : direct = true \/ direct = false) by (destruct direct; auto). destruct Hd as [Hd|Hd]; rewrite Hd.
  - rewrite for_each_single. unfold set_pair. cbn [fst snd set_slot]. rewrite Erd. cbn [bind]. rewrite Evs. reflexivity.
  - rewrite (rd_nth du0 j 0%Q) by (rewrite Hdu by exact Hd; lia). cbn [bind].
    assert (Hlr : length (c_rates c) = n). { rewrite <- Hr. rewrite (f_rates _ _ _ _ _ F j c0 E0 KK), Hd. reflexivity. }
    destruct (set_at_ok (c_rates c) 0 (nth j du0 0%Q)) as (rs & Ers & _); [lia|]. rewrite Ers. cbn [bind].
    cbn [for_each]. unfold set_pair. cbn [fst snd set_slot]. rewrite Erd. cbn [bind]. rewrite Evs. cbn [bind].
    destruct (rd_set_same cs j (set_values c vs) Hjl) as (cs1 & E1 & E2 & E3 & E4).
    rewrite E1. cbn [bind fst snd]. rewrite E2. cbn [bind c_rates set_values]. rewrite Ers. cbn [bind].
    destruct (E4 (set_rates (set_values c vs) rs)) as (cs2 & E5 & E6). rewrite E5, E6. reflexivity.
Qed.

Lemma set_pair_shape p cf cf' : same_shape (ins0, cs0) cf -> set_pair p cf = Ok cf' -> same_shape (ins0, cs0) cf'.
Proof.
  intros Hs E.
  assert (L : load1 [snd p] (fst p) (0, cf) = Ok (1, cf')).
  { unfold load1. cbn. unfold set_pair in E. rewrite E. reflexivity. }
  apply (load1_shape [snd p] (ins0, cs0) (fst p) (0, cf) (1, cf') Hs L).
Qed.

Lemma start_loop_pairs k : forall a ins cs, same_shape (ins0, cs0) (ins, cs) -> a + k <= n_controls m ->
  bind (loop k a (start_control direct u0 du0) cs) (fun cs' => Ok (ins, cs'))
  = for_each (flat_map (start_pairs direct u0 du0 cs0) (seq a k)) set_pair (ins, cs).
Proof.
  induction k as [|k IH]; intros a ins cs Hs Ha; cbn [loop seq flat_map]; [reflexivity|].
  rewrite for_each_app, <- start_control_pairs by (assumption || lia). rewrite !bind_assoc.
  destruct (start_control direct u0 du0 a cs) as [cs1| |] eqn:E; cbn [bind]; try reflexivity.
  apply IH; [|lia].
  assert (E' : for_each (start_pairs direct u0 du0 cs0 a) set_pair (ins, cs) = Ok (ins, cs1)).
  { rewrite <- start_control_pairs by (assumption || lia). rewrite E. reflexivity. }
  exact (for_each_inv (fun cf => same_shape (ins0, cs0) cf) _ _ _ _ set_pair_shape Hs E').
Qed.

Lemma start_point_spec : exists cf, start_point m direct q0 u0 du0 (ins0, cs0) = Ok cf /\ same_shape (ins0, cs0) cf /\
  (forall j, get cf (SIn 0 j) = nth_error q0 j) /\
  (forall j c, nth_error cs0 j = Some c -> c_kind c = FULL_MESH ->
     get cf (SVal j 0) = nth_error u0 j /\ (direct = false -> get cf (SRate j 0) = nth_error du0 j)) /\
  (forall sl, (forall j, sl <> SIn 0 j) ->
     (forall j c, nth_error cs0 j = Some c -> c_kind c = FULL_MESH -> sl <> SVal j 0 /\ sl <> SRate j 0) ->
     get cf sl = get (ins0, cs0) sl).
Proof.
  unfold start_point. cbn [fst snd].
  assert (Hn : 2 <= n) by apply (f_n _ _ _ _ _ F). pose proof (f_inputs _ _ _ _ _ F) as Hi.
  destruct (set_at_ok ins0 0 q0) as (ins & Ei & Hli & Hni); [lia|]. rewrite Ei. cbn [bind].
  assert (Hs : same_shape (ins0, cs0) (ins, cs0)).
  { split; [cbn; lia|]. split; [reflexivity|]. split; cbn.
    - intros i r r' E E'. rewrite Hni in E'. destruct (Nat.eqb_spec i 0) as [->|].
      + injection E' as <-. rewrite Hq. eapply (f_rows _ _ _ _ _ F); eauto.
      + congruence.
    - intros j c c' E E'. rewrite E in E'. injection E' as <-. apply control_shape_refl. }
  unfold for_range. rewrite start_loop_pairs by (assumption || lia). rewrite Nat.sub_0_r.
  set (ps := flat_map (start_pairs direct u0 du0 cs0) (seq 0 (n_controls m))).
  assert (Hin : forall sl v, In (sl, v) ps <-> exists j c, nth_error cs0 j = Some c /\ c_kind c = FULL_MESH /\
     ((sl = SVal j 0 /\ v = nth j u0 0%Q) \/ (direct = false /\ sl = SRate j 0 /\ v = nth j du0 0%Q))).
  { intros sl v. unfold ps. rewrite in_flat_map. unfold start_pairs, is_full. split.
    - intros (j & Hj & H). destruct (nth_error cs0 j) as [c|] eqn:E; [|destruct H].
      destruct (kind_eqb (c_kind c) FULL_MESH) eqn:K; [|destruct H]. apply kind_eqb_spec in K.
      exists j, c. split; [exact E|]. split; [exact K|]. destruct H as [H|H]; [injection H as <- <-; auto|].
      destruct direct; [destruct H|]. destruct H as [H|[]]. injection H as <- <-. auto.
    - intros (j & c & E & K & H). exists j. split.
      + apply in_seq. rewrite <- (f_cs _ _ _ _ _ F). split; [lia|]. apply nth_error_Some. congruence.
      + rewrite E, K. cbn [kind_eqb]. destruct H as [(-> & ->)|(-> & -> & ->)]; [left; reflexivity|right; left; reflexivity]. }
  destruct (sets_ok ps (ins, cs0)) as (cf & E & Hsh & Hno & Hyes).
  { unfold ps. rewrite map_flat_map. apply NoDup_flat_map.
    - apply seq_NoDup.
    - intros j _. unfold start_pairs. destruct (is_full cs0 j), direct; cbn; repeat constructor; cbn; intuition discriminate.
    - intros a b sl _ _ Ha Hb. unfold start_pairs in *.
      destruct (is_full cs0 a), (is_full cs0 b), direct; cbn in *; intuition congruence. }
  { intros sl Hsl. apply in_map_iff in Hsl. destruct Hsl as ((sl' & v) & <- & Hp). cbn [fst].
    apply Hin in Hp. destruct Hp as (j & c & Ec & K & [(-> & _)|(Hd & -> & _)]); cbn [get snd]; rewrite Ec.
    - pose proof (f_values _ _ _ _ _ F j c Ec K). destruct (c_values c); cbn in *; [lia|eauto].
    - pose proof (f_rates _ _ _ _ _ F j c Ec K) as Hr. rewrite Hd in Hr. destruct (c_rates c); cbn in *; [lia|eauto]. }
  exists cf. rewrite E. split; [reflexivity|].
  split; [eapply same_shape_trans; eauto|].
  assert (Hnin : forall sl, (forall j c, nth_error cs0 j = Some c -> c_kind c = FULL_MESH -> sl <> SVal j 0 /\ sl <> SRate j 0) ->
     ~ In sl (map fst ps)).
  { intros sl H Hsl. apply in_map_iff in Hsl. destruct Hsl as ((sl' & v) & <- & Hp). apply Hin in Hp. cbn [fst] in *.
    destruct Hp as (j & c & Ec & K & [(-> & _)|(_ & -> & _)]); destruct (H j c Ec K); congruence. }
  split; [|split].
  - intros j. rewrite Hno; [|apply Hnin; intros; split; discriminate]. cbn [get fst]. rewrite Hni. reflexivity.
  - intros j c Ec K. assert (Hj : j < n_controls m). { rewrite <- (f_cs _ _ _ _ _ F). apply nth_error_Some. congruence. }
    split.
    + rewrite (Hyes (SVal j 0) (nth j u0 0%Q)); [symmetry; apply nth_error_nth'; lia|]. apply Hin. exists j, c. auto.
    + intros Hd. rewrite (Hyes (SRate j 0) (nth j du0 0%Q)).
      * symmetry. apply nth_error_nth'. rewrite Hdu; auto.
      * apply Hin. exists j, c. auto 6.
  - intros sl H1 H2. rewrite Hno by (apply Hnin; exact H2). destruct sl as [i j| |]; try reflexivity.
    cbn [get fst]. rewrite Hni. destruct (Nat.eqb_spec i 0) as [->|]; [exfalso; apply (H1 j); reflexivity|reflexivity].
Qed.
End Start.
