(** Lemmas on the control variables. *)
From Coq Require Import QArith Bool Arith Lia List.
From Verif Require Import M_Controls S_Controls.
Import ListNotations.
Local Open Scope nat_scope.

Lemma Qlt_bool_true a b : Qlt_bool a b = true <-> (a < b)%Q.
Proof.
  unfold Qlt_bool. rewrite negb_true_iff. split.
  - intros H. destruct (Qlt_le_dec a b) as [L|L]; [exact L|].
    apply Qle_bool_iff in L. congruence.
  - intros H. destruct (Qle_bool b a) eqn:E; [|reflexivity].
    apply Qle_bool_iff in E. exfalso. eapply Qlt_not_le; eauto.
Qed.
Lemma Qlt_bool_false a b : Qlt_bool a b = false <-> (b <= a)%Q.
Proof.
  unfold Qlt_bool. rewrite negb_false_iff. apply Qle_bool_iff.
Qed.

(** The halving loop stays within its range whatever the contents. *)
Lemma ub_loop_range fuel : forall l first len v,
  first <= upper_bound_loop fuel l first len v <= first + len.
Proof.
  induction fuel as [|f IH]; intros l first len v; cbn [upper_bound_loop]; [lia|].
  destruct (Nat.eqb_spec len 0) as [->|Hn]; [lia|]. cbv zeta.
  assert (len / 2 < len) by (apply Nat.div_lt; lia).
  destruct (Qlt_bool v (nth (first + len / 2) l 0%Q)).
  - specialize (IH l first (len / 2) v). lia.
  - specialize (IH l (first + len / 2 + 1) (len - len / 2 - 1) v). lia.
Qed.

Lemma upper_bound_range l v : upper_bound l v <= length l.
Proof. unfold upper_bound. pose proof (ub_loop_range (length l) l 0 (length l) v). lia. Qed.

Lemma ub_loop_spec fuel : forall l first len v,
  sorted l -> len <= fuel -> first + len <= length l ->
  (forall i, i < first -> (nth i l 0 <= v)%Q) ->
  (forall i, first + len <= i -> i < length l -> (v < nth i l 0)%Q) ->
  let r := upper_bound_loop fuel l first len v in
  (forall i, i < r -> (nth i l 0 <= v)%Q) /\
  (forall i, r <= i -> i < length l -> (v < nth i l 0)%Q).
Proof.
  induction fuel as [|f IH]; intros l first len v Hs Hf Hb Hlo Hhi; cbn [upper_bound_loop].
  - replace len with 0 in * by lia. rewrite Nat.add_0_r in *. split; [exact Hlo|exact Hhi].
  - destruct (Nat.eqb_spec len 0) as [->|Hn].
    + rewrite Nat.add_0_r in *. split; assumption.
    + cbv zeta.
      assert (Hd : len / 2 < len) by (apply Nat.div_lt; lia).
      destruct (Qlt_bool v (nth (first + len / 2) l 0%Q)) eqn:E.
      * apply Qlt_bool_true in E.
        apply IH; [exact Hs|lia|lia|exact Hlo|].
        intros i Hi Hi2. eapply Qlt_le_trans; [exact E|]. apply Hs; lia.
      * apply Qlt_bool_false in E.
        apply IH; [exact Hs|lia|lia| |].
        -- intros i Hi. eapply Qle_trans; [|exact E]. apply Hs; lia.
        -- intros i Hi Hi2. apply Hhi; lia.
Qed.

Lemma upper_bound_spec l v : sorted l ->
  (forall i, i < upper_bound l v -> (nth i l 0 <= v)%Q) /\
  (forall i, upper_bound l v <= i -> i < length l -> (v < nth i l 0)%Q).
Proof.
  intros Hs. apply (ub_loop_spec (length l) l 0 (length l) v); try assumption; try lia.
Qed.

Lemma rd_ok {A} (l : list A) i : i < length l -> exists a, nth_error l i = Some a /\ rd l i = Ok a.
Proof.
  intros H. destruct (nth_error l i) as [a|] eqn:E.
  - exists a. unfold rd. rewrite E. auto.
  - apply nth_error_None in E. lia.
Qed.

Lemma rd_inv {A} (l : list A) i a : rd l i = Ok a <-> nth_error l i = Some a.
Proof. unfold rd. destruct (nth_error l i); split; congruence. Qed.

Lemma kind_eqb_spec a b : kind_eqb a b = true <-> a = b.
Proof. destruct a, b; cbn; split; congruence. Qed.

(** C26 *)
Lemma hypermesh_lookup c s :
  c_kind c = HYPERMESH -> c_hypermesh c <> [] -> sorted (c_hypermesh c) ->
  length (c_values c) = length (c_hypermesh c) ->
  match hypermesh_value c s with
  | Ok v => value_in_force (c_hypermesh c) (c_values c) s v
  | Throw => before_all (c_hypermesh c) s
  | UB => False
  end.
Proof.
  intros Hk Hne Hs Hl. unfold hypermesh_value. rewrite Hk. cbn [kind_eqb].
  unfold hypermesh_position. cbv zeta.
  destruct (upper_bound_spec (c_hypermesh c) s Hs) as [Hlo Hhi].
  pose proof (upper_bound_range (c_hypermesh c) s) as Hr.
  set (u := upper_bound (c_hypermesh c) s) in *.
  destruct (Nat.eqb_spec u 0) as [E|E].
  - destruct (c_hypermesh c) eqn:Em; [congruence|]. cbn [bind].
    intros j Hj. apply Hhi; [lia|exact Hj].
  - cbn [bind]. destruct (rd_ok (c_values c) (u - 1)) as (a & Ea & Er); [lia|].
    rewrite Er. exists (u - 1). split; [lia|]. split; [exact Ea|]. split.
    + apply Hlo. lia.
    + intros j Hj Hj2. apply Hhi; [lia|exact Hj2].
Qed.

Lemma value_in_force_unique mesh values s v w :
  value_in_force mesh values s v -> value_in_force mesh values s w -> v = w.
Proof.
  intros (i & Hi & Ev & Hle & Hlt) (j & Hj & Ew & Hle' & Hlt').
  destruct (Nat.lt_trichotomy i j) as [L|[L|L]].
  - exfalso. apply (Qlt_not_le _ _ (Hlt j L Hj) Hle').
  - subst. congruence.
  - exfalso. apply (Qlt_not_le _ _ (Hlt' i L Hi) Hle).
Qed.

(** The lookup finds a value exactly when the first point is not after [s]. *)
Lemma hypermesh_found c s :
  c_kind c = HYPERMESH -> c_hypermesh c <> [] -> sorted (c_hypermesh c) ->
  length (c_values c) = length (c_hypermesh c) ->
  (nth 0 (c_hypermesh c) 0 <= s)%Q <-> exists v, hypermesh_value c s = Ok v.
Proof.
  intros Hk Hne Hs Hl. pose proof (hypermesh_lookup c s Hk Hne Hs Hl) as H.
  assert (Hpos : 0 < length (c_hypermesh c)) by (destruct (c_hypermesh c); [congruence|cbn; lia]).
  split.
  - intros Hle. destruct (hypermesh_value c s) as [v| |]; [eauto| |contradiction].
    exfalso. apply (Qlt_not_le _ _ (H 0 Hpos) Hle).
  - intros (v & E). rewrite E in H. destruct H as (i & Hi & _ & Hle & _).
    eapply Qle_trans; [|exact Hle]. apply Hs; lia.
Qed.

(** Whatever the order of the points, no read leaves the vectors. *)
Lemma hypermesh_safe c s :
  c_hypermesh c <> [] -> length (c_values c) = length (c_hypermesh c) -> hypermesh_value c s <> UB.
Proof.
  intros Hne Hl. unfold hypermesh_value. destruct (kind_eqb _ _); [|discriminate].
  unfold hypermesh_position. cbv zeta.
  pose proof (upper_bound_range (c_hypermesh c) s) as Hr.
  destruct (Nat.eqb_spec (upper_bound (c_hypermesh c) s) 0).
  - destruct (c_hypermesh c); [congruence|discriminate].
  - cbn [bind]. destruct (rd_ok (c_values c) (upper_bound (c_hypermesh c) s - 1)) as (a & _ & ->); [lia|discriminate].
Qed.

Lemma hypermesh_empty_ub c s : c_kind c = HYPERMESH -> c_hypermesh c = [] -> hypermesh_value c s = UB.
Proof. intros Hk Hm. unfold hypermesh_value, hypermesh_position. rewrite Hk, Hm. reflexivity. Qed.

(** C27 *)
Lemma all_ok_inv {A} (l : list (res A)) r : all_ok l = Ok r ->
  length r = length l /\ forall i a, nth_error r i = Some a -> nth_error l i = Some (Ok a).
Proof.
  revert r. induction l as [|x l IH]; intros r H; cbn in H.
  - injection H as <-. split; [reflexivity|]. intros [|i] a E; discriminate.
  - destruct x as [a| |]; try discriminate. cbn in H.
    destruct (all_ok l) as [t| |]; try discriminate. cbn in H. injection H as <-.
    destruct (IH t eq_refl) as [Hl Hi]. split; [cbn; lia|].
    intros [|i] b E; cbn in *; [congruence|auto].
Qed.

Lemma all_ok_intro {A} (l : list (res A)) r :
  length r = length l -> (forall i a, nth_error r i = Some a -> nth_error l i = Some (Ok a)) -> all_ok l = Ok r.
Proof.
  revert r. induction l as [|x l IH]; intros [|a r] Hl H; cbn in *; try discriminate; [reflexivity|].
  pose proof (H 0 a eq_refl) as H0. cbn in H0. injection H0 as ->. cbn.
  rewrite (IH r); [reflexivity|lia|]. intros i b E. apply (H (S i) b E).
Qed.

Lemma all_ok_not_ub {A} (l : list (res A)) : (forall r, In r l -> r <> UB) -> all_ok l <> UB.
Proof.
  induction l as [|x l IH]; intros H; cbn; [discriminate|].
  pose proof (H x (or_introl eq_refl)) as Hx.
  destruct x; cbn; [|discriminate|congruence].
  destruct (all_ok l); cbn; try discriminate. apply IH. intros r Hr. apply H. right; exact Hr.
Qed.

Lemma all_ok_all {A} (l : list (res A)) : (forall r, In r l -> exists a, r = Ok a) -> exists v, all_ok l = Ok v.
Proof.
  induction l as [|x l IH]; intros H; cbn; [eauto|].
  destruct (H x (or_introl eq_refl)) as [a ->]. cbn.
  destruct IH as [v ->]; [intros r Hr; apply H; right; exact Hr|]. cbn. eauto.
Qed.

Lemma is_nil_true {A} (l : list A) : is_nil l = true <-> l = [].
Proof. destruct l; cbn; split; congruence. Qed.

(** What a passed check says about one control. *)
Definition checked (c : control_variable) : Prop :=
  match c_kind c with
  | DONT_OPTIMIZE => c_hypermesh c = [] /\ c_values c = [] /\ c_rates c = [] /\ c_dissipation c = 0%Q
  | CONSTANT => c_hypermesh c = [] /\ length (c_values c) = 1 /\ c_rates c = [] /\ c_dissipation c = 0%Q
  | HYPERMESH => length (c_values c) = length (c_hypermesh c) /\ c_rates c = [] /\ c_dissipation c = 0%Q
  | FULL_MESH => c_hypermesh c = [] /\ (c_rates c = [] \/ length (c_rates c) = length (c_values c)) /\
                 (0 <= c_dissipation c)%Q
  end.

Lemma check_control_checked c c' : check_control c = Ok c' ->
  checked c' /\ c_kind c' = c_kind c /\ c_hypermesh c' = c_hypermesh c /\ c_values c' = c_values c /\ c_rates c' = c_rates c.
Proof.
  unfold check_control. destruct c as [k h v r d]; destruct k; cbn; intros H;
  repeat match type of H with
         | (if negb ?b then _ else _) = _ => let E := fresh "E" in destruct b eqn:E; cbn in H; [|discriminate H]
         | (if ?b then _ else _) = _ => let E := fresh "E" in destruct b eqn:E; [discriminate H|]
         end; injection H as <-; cbn;
  repeat match goal with
         | E : is_nil _ = true |- _ => apply is_nil_true in E
         | E : (_ =? _) = true |- _ => apply Nat.eqb_eq in E
         | E : Qlt_bool _ _ = false |- _ => apply Qlt_bool_false in E
         end; unfold checked; cbn; auto 10.
  split; [|auto]. split; [assumption|]. split; [|assumption].
  apply andb_false_iff in E0. destruct E0 as [E0|E0]; apply negb_false_iff in E0.
  - right. apply Nat.eqb_eq in E0. lia.
  - left. apply is_nil_true. exact E0.
Qed.

Lemma check_controls_checked cs cs' : check_controls cs = Ok cs' ->
  length cs' = length cs /\
  forall j c', nth_error cs' j = Some c' -> exists c, nth_error cs j = Some c /\ checked c' /\
     c_kind c' = c_kind c /\ c_hypermesh c' = c_hypermesh c /\ c_values c' = c_values c /\ c_rates c' = c_rates c.
Proof.
  intros H. destruct (all_ok_inv _ _ H) as [Hl Hi]. rewrite map_length in Hl. split; [exact Hl|].
  intros j c' E. specialize (Hi j c' E). rewrite nth_error_map in Hi.
  destruct (nth_error cs j) as [c|] eqn:Ec; [|discriminate]. cbn in Hi. injection Hi as Hi.
  exists c. split; [reflexivity|]. apply check_control_checked. exact Hi.
Qed.

Lemma control_at_s_ok c d i s :
  checked c -> (c_kind c = FULL_MESH -> i < length (c_values c)) ->
  (c_kind c = HYPERMESH -> c_hypermesh c <> []) -> control_at_s c d i s <> UB.
Proof.
  unfold checked, control_at_s. intros H Hf Hh. destruct (c_kind c) eqn:Ek.
  - discriminate.
  - destruct H as (_ & Hl & _). destruct (rd_ok (c_values c) 0) as (a & _ & ->); [lia|discriminate].
  - destruct H as (Hl & _). apply hypermesh_safe; auto.
  - destruct (rd_ok (c_values c) i) as (a & _ & ->); [auto|discriminate].
Qed.

Lemma in_combine_nth {A B} (l : list A) (m : list B) a b :
  In (a, b) (combine l m) -> exists j, nth_error l j = Some a /\ nth_error m j = Some b.
Proof.
  revert m. induction l as [|x l IH]; intros [|y m]; cbn; try tauto.
  intros [E|H]; [injection E as -> ->; exists 0; auto|].
  destruct (IH m H) as (j & ? & ?). exists (S j). auto.
Qed.

Lemma control_array_safe cs cs' defaults n i s :
  check_controls cs = Ok cs' ->
  (forall c, In c cs -> c_kind c = FULL_MESH -> length (c_values c) = n) ->
  (forall c, In c cs -> c_kind c = HYPERMESH -> c_hypermesh c <> []) ->
  i < n -> control_array_at_s cs' defaults i s <> UB.
Proof.
  intros H Hn Hh Hi. apply all_ok_not_ub. intros r Hr. apply in_map_iff in Hr.
  destruct Hr as ((c & d) & <- & Hin). cbn.
  destruct (in_combine_nth _ _ _ _ Hin) as (j & Ec & _).
  destruct (proj2 (check_controls_checked _ _ H) j c Ec) as (c0 & E0 & Hc & Hk & Hm & Hv & _).
  assert (Hin0 : In c0 cs) by (eapply nth_error_In; eauto).
  apply control_at_s_ok; [exact Hc| |].
  - intros Hf. rewrite Hv. rewrite (Hn c0); auto; congruence.
  - intros Hf. rewrite Hm. apply Hh; auto; congruence.
Qed.

Lemma control_array_found cs cs' defaults n i s :
  check_controls cs = Ok cs' ->
  (forall c, In c cs -> c_kind c = FULL_MESH -> length (c_values c) = n) ->
  (forall c, In c cs -> c_kind c = HYPERMESH ->
     c_hypermesh c <> [] /\ sorted (c_hypermesh c) /\ (nth 0 (c_hypermesh c) 0 <= s)%Q) ->
  i < n -> exists v, control_array_at_s cs' defaults i s = Ok v.
Proof.
  intros H Hn Hh Hi. apply all_ok_all. intros r Hr. apply in_map_iff in Hr.
  destruct Hr as ((c & d) & <- & Hin). cbn.
  destruct (in_combine_nth _ _ _ _ Hin) as (j & Ec & _).
  destruct (proj2 (check_controls_checked _ _ H) j c Ec) as (c0 & E0 & Hc & Hk & Hm & Hv & _).
  assert (Hin0 : In c0 cs) by (eapply nth_error_In; eauto).
  unfold checked in Hc. unfold control_at_s. destruct (c_kind c) eqn:Ek.
  - eauto.
  - destruct Hc as (_ & Hl & _). destruct (rd_ok (c_values c) 0) as (a & _ & ->); [lia|eauto].
  - destruct Hc as (Hl & _). destruct (Hh c0 Hin0) as (A & B & C); [congruence|]. rewrite <- Hm in A, B, C.
    apply hypermesh_found; auto.
  - destruct (rd_ok (c_values c) i) as (a & _ & ->); [|eauto]. rewrite Hv, (Hn c0); auto; congruence.
Qed.

Lemma rates_found cs cs' n i :
  check_controls cs = Ok cs' ->
  (forall c, In c cs -> c_kind c = FULL_MESH -> length (c_rates c) = n) ->
  i < n -> exists v, all_ok (map (fun c => rate_at c i) cs') = Ok v.
Proof.
  intros H Hn Hi. apply all_ok_all. intros r Hr. apply in_map_iff in Hr. destruct Hr as (c & <- & Hin).
  apply In_nth_error in Hin. destruct Hin as (j & Ec).
  destruct (proj2 (check_controls_checked _ _ H) j c Ec) as (c0 & E0 & Hc & Hk & Hm & Hv & Hr).
  assert (Hin0 : In c0 cs) by (eapply nth_error_In; eauto).
  unfold rate_at. destruct (c_kind c) eqn:Ek; eauto.
  destruct (rd_ok (c_rates c) i) as (a & _ & ->); [|eauto]. rewrite Hr, (Hn c0); auto; congruence.
Qed.

(** Control [j] of the array is the value in force of control [j]. *)
Lemma control_array_value cs defaults i s v :
  control_array_at_s cs defaults i s = Ok v -> length defaults = length cs ->
  length v = length cs /\
  forall j c d, nth_error cs j = Some c -> nth_error defaults j = Some d ->
  exists w, nth_error v j = Some w /\ control_at_s c d i s = Ok w.
Proof.
  intros H Hl. destruct (all_ok_inv _ _ H) as [Hlen Hv]. rewrite map_length, combine_length in Hlen.
  split; [lia|]. intros j c d Ec Ed.
  assert (Hj : j < length cs) by (apply nth_error_Some; congruence).
  destruct (nth_error v j) as [w|] eqn:Ew; [|apply nth_error_None in Ew; lia].
  exists w. split; [reflexivity|]. specialize (Hv j w Ew). rewrite nth_error_map in Hv.
  assert (E : nth_error (combine cs defaults) j = Some (c, d)).
  { clear - Ec Ed. revert defaults j Ec Ed. induction cs as [|x cs IH]; intros [|y ds] [|j] Ec Ed; cbn in *; try discriminate.
    - congruence.
    - apply IH; assumption. }
  rewrite E in Hv. cbn in Hv. congruence.
Qed.

Lemma dead_lookup cs cs' c s :
  check_controls cs = Ok cs' -> In c cs' -> c_kind c = HYPERMESH ->
  forall v, hypermesh_value c s = Ok v -> hypermesh_value_and_rate c s = UB.
Proof.
  intros H Hin Hk v Hv. apply In_nth_error in Hin. destruct Hin as (j & Ec).
  destruct (proj2 (check_controls_checked _ _ H) j c Ec) as (c0 & _ & Hc & _).
  unfold checked in Hc. rewrite Hk in Hc. destruct Hc as (_ & Hr & _).
  unfold hypermesh_value in Hv. unfold hypermesh_value_and_rate. rewrite Hk in *. cbn [kind_eqb] in *.
  destruct (hypermesh_position (c_hypermesh c) s) as [i| |]; cbn in *; try discriminate.
  rewrite Hv. cbn. rewrite Hr. destruct i; reflexivity.
Qed.

Lemma counts_spec cs :
  count_constant cs = length (filter (fun c => kind_eqb (c_kind c) CONSTANT) cs) /\
  count_full cs = length (filter (fun c => kind_eqb (c_kind c) FULL_MESH) cs) /\
  count_hypermesh_points cs =
    length (flat_map c_hypermesh (filter (fun c => kind_eqb (c_kind c) HYPERMESH) cs)).
Proof.
  induction cs as [|c cs (IH1 & IH2 & IH3)]; [repeat split|].
  cbn [count_constant count_full count_hypermesh_points filter].
  destruct (c_kind c); cbn [kind_eqb length flat_map]; rewrite ?app_length; lia.
Qed.
