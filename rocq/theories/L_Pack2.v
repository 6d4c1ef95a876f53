(** Packing and unpacking of the NLP vector. *)
From Coq Require Import QArith Bool Arith Lia List.
From Verif Require Import M_Controls S_Controls L_Controls M_Laptime S_Laptime L_Pack.
Import ListNotations.
Local Open Scope nat_scope.

Lemma flat_map_single {A B} (g : A -> B) l : flat_map (fun j => [g j]) l = map g l.
Proof. induction l; cbn; congruence. Qed.

Lemma map_flat_map {A B C} (g : B -> C) (f : A -> list B) l : map g (flat_map f l) = flat_map (fun x => map g (f x)) l.
Proof. induction l; cbn; [reflexivity|]. rewrite map_app, IHl. reflexivity. Qed.

Lemma flat_map_ext_in {A B} (f g : A -> list B) l : (forall x, In x l -> f x = g x) -> flat_map f l = flat_map g l.
Proof. induction l; cbn; intros H; [reflexivity|]. rewrite H, IHl; auto. Qed.

Lemma flat_map_length_const {A B} (f : A -> list B) l k : (forall x, In x l -> length (f x) = k) -> length (flat_map f l) = length l * k.
Proof. induction l; cbn; intros H; [reflexivity|]. rewrite app_length, H, IHl; auto. Qed.

(** ** What the checks give *)
Lemma check_sizes_inv direct n inputs cs : check_sizes direct n inputs cs = Ok tt ->
  length inputs = n /\ forall c, In c cs -> c_kind c = FULL_MESH ->
    length (c_values c) = n /\ length (c_rates c) = (if direct then 0 else n).
Proof.
  unfold check_sizes. destruct (Nat.eqb_spec (length inputs) n) as [->|]; [|discriminate]. cbn [negb].
  intros H. split; [reflexivity|]. revert H.
  induction cs as [|c cs IH]; intros H x Hin Hk; [destruct Hin|]. cbn in H.
  apply bind_ok in H. destruct H as ([] & Hc & H).
  destruct Hin as [->|Hin]; [|apply IH; auto].
  unfold check_size_control in Hc. rewrite Hk in Hc. cbn in Hc.
  destruct (Nat.eqb_spec (length (c_values x)) n); [|discriminate]. cbn in Hc. split; [assumption|].
  destruct direct.
  - destruct (Nat.eqb_spec (length (c_rates x)) 0); [assumption|discriminate].
  - destruct (Nat.eqb_spec (length (c_rates x)) n); [assumption|discriminate].
Qed.

Lemma guess_checked direct m s inputs cs : guess_ok direct m s inputs cs -> forall j c, nth_error cs j = Some c -> checked c.
Proof.
  intros ((cs0 & H) & _) j c E. destruct (check_controls_checked _ _ H) as [_ Hc].
  destruct (Hc j c E) as (? & _ & ? & _). assumption.
Qed.

(** Facts about a guess, in the form used below. *)
Record facts (direct : bool) (m : car) (n : nat) (inputs : list (list Q)) (cs : list control_variable) : Prop := {
  f_n : 2 <= n;
  f_inputs : length inputs = n;
  f_rows : forall i r, nth_error inputs i = Some r -> length r = n_inputs m;
  f_cs : length cs = n_controls m;
  f_checked : forall j c, nth_error cs j = Some c -> checked c;
  f_values : forall j c, nth_error cs j = Some c -> c_kind c = FULL_MESH -> length (c_values c) = n;
  f_rates : forall j c, nth_error cs j = Some c -> c_kind c = FULL_MESH -> length (c_rates c) = if direct then 0 else n }.

Lemma guess_facts direct m s inputs cs : guess_ok direct m s inputs cs -> facts direct m (length s) inputs cs.
Proof.
  intros H. pose proof (guess_checked _ _ _ _ _ H) as Hc. destruct H as (_ & Hs & Hn & Hl & Hr).
  destruct (check_sizes_inv _ _ _ _ Hs) as [Hi Hf]. constructor; auto.
  - intros i r E. apply Hr. eapply nth_error_In; eauto.
  - intros j c E Hk. apply (Hf c); [eapply nth_error_In; eauto|exact Hk].
  - intros j c E Hk. apply (Hf c); [eapply nth_error_In; eauto|exact Hk].
Qed.

Lemma facts_shape direct m n ins cs ins' cs' :
  facts direct m n ins cs -> same_shape (ins, cs) (ins', cs') -> facts direct m n ins' cs'.
Proof.
  intros F Hs. pose proof Hs as (H1 & H2 & H3 & H4). cbn in *. apply same_shape_sym in Hs.
  constructor.
  - apply (f_n _ _ _ _ _ F).
  - rewrite <- H1. apply (f_inputs _ _ _ _ _ F).
  - intros i r E. destruct (nth_error_transport _ _ _ _ (eq_sym H1) E) as [r0 E0].
    rewrite <- (H3 _ _ _ E0 E). eapply (f_rows _ _ _ _ _ F); eauto.
  - rewrite <- H2. apply (f_cs _ _ _ _ _ F).
  - intros j c E. destruct (nth_error_transport _ _ _ _ (eq_sym H2) E) as [c0 E0].
    pose proof (f_checked _ _ _ _ _ F j c0 E0) as Hc.
    destruct (H4 j c0 c E0 E) as (K & Hm & Hd & Hv & Hr). unfold checked in *. rewrite <- K, <- Hm, <- Hd, <- Hv.
    assert (Hnil : c_rates c0 = [] -> c_rates c = []).
    { intros Z. rewrite Z in Hr. destruct (c_rates c); [reflexivity|discriminate]. }
    assert (Hnil2 : c_values c0 = [] -> c_values c = []).
    { intros Z. rewrite Z in Hv. destruct (c_values c); [reflexivity|discriminate]. }
    destruct (c_kind c0).
    + intuition.
    + intuition.
    + intuition.
    + destruct Hc as (? & [?|?] & ?); split; auto; split; auto. right. congruence.
  - intros j c E Hk. destruct (nth_error_transport _ _ _ _ (eq_sym H2) E) as [c0 E0].
    destruct (H4 j c0 c E0 E) as (K & _ & _ & Hv & _). rewrite <- Hv.
    eapply (f_values _ _ _ _ _ F); eauto. congruence.
  - intros j c E Hk. destruct (nth_error_transport _ _ _ _ (eq_sym H2) E) as [c0 E0].
    destruct (H4 j c0 c E0 E) as (K & _ & _ & _ & Hr). rewrite <- Hr.
    eapply (f_rates _ _ _ _ _ F); eauto. congruence.
Qed.

(** ** Slots *)
Lemma slots_shape m direct closed n ins cs ins' cs' :
  same_shape (ins, cs) (ins', cs') -> slots m direct closed n cs = slots m direct closed n cs'.
Proof.
  intros (_ & H2 & _ & H4). cbn in *.
  assert (Hf : forall j, is_full cs j = is_full cs' j).
  { intros j. unfold is_full. destruct (nth_error cs j) as [c|] eqn:E.
    - destruct (nth_error_transport _ _ _ _ H2 E) as [c' E']. rewrite E'.
      destruct (H4 _ _ _ E E') as (-> & _). reflexivity.
    - destruct (nth_error cs' j) eqn:E'; [|reflexivity].
      destruct (nth_error_transport _ _ _ _ (eq_sym H2) E'). congruence. }
  assert (Hr : forall j, rest_slots cs j = rest_slots cs' j).
  { intros j. unfold rest_slots. destruct (nth_error cs j) as [c|] eqn:E.
    - destruct (nth_error_transport _ _ _ _ H2 E) as [c' E']. rewrite E'.
      destruct (H4 _ _ _ E E') as (-> & _ & _ & -> & _). reflexivity.
    - destruct (nth_error cs' j) eqn:E'; [|reflexivity].
      destruct (nth_error_transport _ _ _ _ (eq_sym H2) E'). congruence. }
  unfold slots. f_equal.
  - apply flat_map_ext_in. intros i _. unfold point_slots. f_equal.
    assert (Hm : forall mk, full_slots m cs mk = full_slots m cs' mk).
    { intros mk. apply flat_map_ext_in. intros j _. rewrite Hf. reflexivity. }
    rewrite !Hm. reflexivity.
  - apply flat_map_ext_in. intros j _. apply Hr.
Qed.

Lemma in_full_slots m cs mk sl : In sl (full_slots m cs mk) <->
  exists j c, j < n_controls m /\ nth_error cs j = Some c /\ c_kind c = FULL_MESH /\ sl = mk j.
Proof.
  unfold full_slots. rewrite in_flat_map. split.
  - intros (j & Hj & H). apply in_seq in Hj. unfold is_full in H.
    destruct (nth_error cs j) as [c|] eqn:E; [|destruct H].
    destruct (kind_eqb (c_kind c) FULL_MESH) eqn:K; [|destruct H]. apply kind_eqb_spec in K.
    destruct H as [<-|[]]. exists j, c. repeat split; auto; lia.
  - intros (j & c & Hj & E & K & ->). exists j. split; [apply in_seq; lia|].
    unfold is_full. rewrite E, K. left; reflexivity.
Qed.

Lemma in_row_slots m i sl : in_time m + 1 < n_inputs m ->
  In sl (row_slots m i) <-> exists j, j < n_inputs m /\ j <> in_time m /\ sl = SIn i j.
Proof.
  intros Ht. unfold row_slots. rewrite in_app_iff, !in_map_iff. split.
  - intros [(j & <- & H)|(j & <- & H)]; apply in_seq in H; exists j; repeat split; lia.
  - intros (j & Hj & Hne & ->). destruct (Nat.lt_ge_cases j (in_time m)).
    + left. exists j. split; [reflexivity|apply in_seq; lia].
    + right. exists j. split; [reflexivity|apply in_seq; lia].
Qed.

Lemma in_rest_slots cs j sl : In sl (rest_slots cs j) <->
  exists c i, nth_error cs j = Some c /\ (c_kind c = CONSTANT \/ c_kind c = HYPERMESH) /\ i < length (c_values c) /\ sl = SVal j i.
Proof.
  unfold rest_slots. destruct (nth_error cs j) as [c|].
  2:{ split; [intros []|intros (? & ? & ? & _); discriminate]. }
  split.
  - intros H. assert (Hk : c_kind c = CONSTANT \/ c_kind c = HYPERMESH) by (destruct (c_kind c); cbn in H; tauto).
    assert (Hin : In sl (map (SVal j) (seq 0 (length (c_values c))))) by (destruct (c_kind c); cbn in H; tauto).
    apply in_map_iff in Hin. destruct Hin as (i & <- & Hi). apply in_seq in Hi.
    exists c, i. repeat split; auto; lia.
  - intros (c' & i & E & K & Hi & ->). injection E as <-.
    assert (Hin : In (SVal j i) (map (SVal j) (seq 0 (length (c_values c))))).
    { apply in_map_iff. exists i. split; [reflexivity|apply in_seq; lia]. }
    destruct K as [-> | ->]; exact Hin.
Qed.

(** Which quantities are unknowns. *)
Definition unknown (m : car) (direct closed : bool) (n : nat) (cs : list control_variable) (sl : slot) : Prop :=
  match sl with
  | SIn i j => offset closed <= i < n /\ j < n_inputs m /\ j <> in_time m
  | SVal j i => exists c, nth_error cs j = Some c /\
      ((c_kind c = FULL_MESH /\ offset closed <= i < n) \/
       ((c_kind c = CONSTANT \/ c_kind c = HYPERMESH) /\ i < length (c_values c)))
  | SRate j i => direct = false /\ offset closed <= i < n /\ exists c, nth_error cs j = Some c /\ c_kind c = FULL_MESH
  end.

Lemma in_slots m direct closed n cs sl : in_time m + 1 < n_inputs m -> length cs = n_controls m ->
  In sl (slots m direct closed n cs) <-> unknown m direct closed n cs sl.
Proof.
  intros Ht Hl. unfold slots. rewrite in_app_iff, !in_flat_map.
  assert (Hlt : forall j c, nth_error cs j = Some c -> j < n_controls m).
  { intros j c E. rewrite <- Hl. apply nth_error_Some. congruence. }
  split.
  - intros [(i & Hi & H)|(j & Hj & H)].
    + apply in_seq in Hi. unfold point_slots in H. rewrite !in_app_iff in H. destruct H as [H|[H|H]].
      * apply in_row_slots in H; [|exact Ht]. destruct H as (j & ? & ? & ->). cbn. repeat split; lia.
      * apply in_full_slots in H. destruct H as (j & c & ? & E & K & ->). cbn. exists c. split; [exact E|].
        left. split; [exact K|lia].
      * destruct direct; [destruct H|]. apply in_full_slots in H. destruct H as (j & c & ? & E & K & ->).
        cbn. repeat split; try lia. eauto.
    + apply in_rest_slots in H. destruct H as (c & i & E & K & Hi & ->). cbn. exists c. split; [exact E|].
      right. auto.
  - destruct sl as [i j|j i|j i]; cbn.
    + intros (Hi & Hj & Hne). left. exists i. split; [apply in_seq; lia|]. unfold point_slots.
      rewrite in_app_iff. left. apply in_row_slots; [exact Ht|]. eauto.
    + intros (c & E & [(K & Hi)|(K & Hi)]).
      * left. exists i. split; [apply in_seq; lia|]. unfold point_slots. rewrite !in_app_iff. right. left.
        apply in_full_slots. exists j, c. eauto.
      * right. exists j. split; [apply in_seq; pose proof (Hlt _ _ E); lia|]. apply in_rest_slots. eauto 10.
    + intros (-> & Hi & c & E & K). left. exists i. split; [apply in_seq; lia|]. unfold point_slots.
      rewrite !in_app_iff. right. right. apply in_full_slots. exists j, c. eauto.
Qed.

Lemma NoDup_flat_map {A B} (f : A -> list B) l :
  NoDup l -> (forall x, In x l -> NoDup (f x)) ->
  (forall x y b, In x l -> In y l -> In b (f x) -> In b (f y) -> x = y) -> NoDup (flat_map f l).
Proof.
  induction l as [|x l IH]; intros Hnd Hf Hd; cbn; [constructor|].
  inversion Hnd as [|? ? Hni Hnd']; subst.
  assert (Happ : forall (a b : list B), NoDup a -> NoDup b -> (forall z, In z a -> ~ In z b) -> NoDup (a ++ b)).
  { induction a as [|z a IHa]; intros b Ha Hb Hx; cbn; [exact Hb|]. inversion Ha; subst. constructor.
    - rewrite in_app_iff. intros [?|?]; [contradiction|]. eapply Hx; [left; reflexivity|eassumption].
    - apply IHa; auto. intros z' Hz'. apply Hx. right; exact Hz'. }
  apply Happ.
  - apply Hf. left; reflexivity.
  - apply IH; [exact Hnd'| |]; intros; [apply Hf|eapply Hd]; eauto; right; assumption.
  - intros z Hz Hin. apply in_flat_map in Hin. destruct Hin as (y & Hy & Hzy).
    assert (x = y) by (eapply Hd; eauto; [left; reflexivity|right; exact Hy]). subst. contradiction.
Qed.

Lemma NoDup_app' {A} (a b : list A) : NoDup a -> NoDup b -> (forall z, In z a -> ~ In z b) -> NoDup (a ++ b).
Proof.
  induction a as [|z a IHa]; intros Ha Hb Hx; cbn; [exact Hb|]. inversion Ha; subst. constructor.
  - rewrite in_app_iff. intros [?|?]; [contradiction|]. eapply Hx; [left; reflexivity|eassumption].
  - apply IHa; auto. intros z' Hz'. apply Hx. right; exact Hz'.
Qed.

Lemma NoDup_map_inj {A B} (f : A -> B) l : (forall x y, f x = f y -> x = y) -> NoDup l -> NoDup (map f l).
Proof.
  intros Hf. induction 1 as [|x l Hni Hnd IH]; cbn; constructor; auto.
  rewrite in_map_iff. intros (y & E & Hy). apply Hf in E. subst. contradiction.
Qed.

Lemma NoDup_full_slots m cs mk : (forall x y, mk x = mk y -> x = y) -> NoDup (full_slots m cs mk).
Proof.
  intros Hmk. apply NoDup_flat_map.
  - apply seq_NoDup.
  - intros j _. destruct (is_full cs j); repeat constructor. cbn. tauto.
  - intros x y b _ _ Hx Hy. destruct (is_full cs x), (is_full cs y); cbn in *; try tauto.
    destruct Hx as [Hx|[]], Hy as [Hy|[]]. apply Hmk. congruence.
Qed.

Lemma slots_NoDup m direct closed n cs : in_time m + 1 < n_inputs m -> length cs = n_controls m ->
  NoDup (slots m direct closed n cs).
Proof.
  intros Ht Hl. unfold slots. apply NoDup_app'.
  - apply NoDup_flat_map.
    + apply seq_NoDup.
    + intros i _. unfold point_slots. apply NoDup_app'; [|apply NoDup_app'|].
      * unfold row_slots. apply NoDup_app'.
        -- apply NoDup_map_inj; [congruence|apply seq_NoDup].
        -- apply NoDup_map_inj; [congruence|apply seq_NoDup].
        -- intros z Hz Hz'. apply in_map_iff in Hz, Hz'. destruct Hz as (a & <- & Ha), Hz' as (b & E & Hb).
           injection E as ->. apply in_seq in Ha, Hb. lia.
      * apply NoDup_full_slots. congruence.
      * destruct direct; [constructor|]. apply NoDup_full_slots. congruence.
      * intros z Hz Hz'. destruct direct; [destruct Hz'|].
        apply in_full_slots in Hz, Hz'. destruct Hz as (? & ? & _ & _ & _ & ->), Hz' as (? & ? & _ & _ & _ & ?). discriminate.
      * intros z Hz Hz'. apply in_row_slots in Hz; [|exact Ht]. destruct Hz as (j & _ & _ & ->).
        rewrite in_app_iff in Hz'. destruct Hz' as [Hz'|Hz'].
        -- apply in_full_slots in Hz'. destruct Hz' as (? & ? & _ & _ & _ & ?). discriminate.
        -- destruct direct; [destruct Hz'|]. apply in_full_slots in Hz'. destruct Hz' as (? & ? & _ & _ & _ & ?). discriminate.
    + intros i i' b _ _ H H'.
      assert (Hp : forall i, In b (point_slots m direct cs i) -> match b with SIn k _ => k | SVal _ k => k | SRate _ k => k end = i).
      { clear - Ht. intros i H. unfold point_slots in H. rewrite !in_app_iff in H. destruct H as [H|[H|H]].
        - apply in_row_slots in H; [|exact Ht]. destruct H as (? & _ & _ & ->). reflexivity.
        - apply in_full_slots in H. destruct H as (? & ? & _ & _ & _ & ->). reflexivity.
        - destruct direct; [destruct H|]. apply in_full_slots in H. destruct H as (? & ? & _ & _ & _ & ->). reflexivity. }
      rewrite <- (Hp i H), <- (Hp i' H'). reflexivity.
  - apply NoDup_flat_map.
    + apply seq_NoDup.
    + intros j _. unfold rest_slots. destruct (nth_error cs j) as [c|]; [|constructor].
      assert (Hm : NoDup (map (SVal j) (seq 0 (length (c_values c))))) by (apply NoDup_map_inj; [congruence|apply seq_NoDup]).
      destruct (c_kind c); auto; constructor.
    + intros x y b _ _ Hx Hy. apply in_rest_slots in Hx, Hy.
      destruct Hx as (? & ? & _ & _ & _ & ->), Hy as (? & ? & _ & _ & _ & E). congruence.
  - intros z Hz Hz'. apply in_flat_map in Hz, Hz'. destruct Hz as (i & _ & Hz), Hz' as (j & _ & Hz').
    apply in_rest_slots in Hz'. destruct Hz' as (c & k & E & K & _ & ->).
    unfold point_slots in Hz. rewrite !in_app_iff in Hz. destruct Hz as [Hz|[Hz|Hz]].
    + apply in_row_slots in Hz; [|exact Ht]. destruct Hz as (? & _ & _ & ?). discriminate.
    + apply in_full_slots in Hz. destruct Hz as (j' & c' & _ & E' & K' & Es). injection Es as -> ->.
      rewrite E in E'. injection E' as <-. destruct K; congruence.
    + destruct direct; [destruct Hz|]. apply in_full_slots in Hz. destruct Hz as (? & ? & _ & _ & _ & ?). discriminate.
Qed.

(** The number of unknowns is the declared number of variables. *)
Lemma flat_map_app_r {A B} (f : A -> list B) l1 l2 : flat_map f (l1 ++ l2) = flat_map f l1 ++ flat_map f l2.
Proof. induction l1; cbn; [reflexivity|]. rewrite IHl1, app_assoc. reflexivity. Qed.

Lemma nth_error_snoc {A} (l : list A) x j : j < length l -> nth_error (l ++ [x]) j = nth_error l j.
Proof. intros. apply nth_error_app1. exact H. Qed.

Lemma full_slots_length_aux cs mk : length (flat_map (fun j => if is_full cs j then [mk j : slot] else []) (seq 0 (length cs))) = count_full cs.
Proof.
  induction cs as [|c cs IH] using rev_ind; [reflexivity|].
  rewrite app_length. cbn [length]. rewrite Nat.add_1_r, seq_S, flat_map_app_r, app_length. cbn [plus flat_map].
  assert (E : flat_map (fun j => if is_full (cs ++ [c]) j then [mk j] else []) (seq 0 (length cs))
            = flat_map (fun j => if is_full cs j then [mk j] else []) (seq 0 (length cs))).
  { apply flat_map_ext_in. intros j Hj. apply in_seq in Hj. unfold is_full. rewrite nth_error_snoc by lia. reflexivity. }
  rewrite E, IH. unfold is_full. rewrite nth_error_app2, Nat.sub_diag by lia. cbn [nth_error].
  assert (C : forall a b, count_full (a ++ b) = count_full a + count_full b).
  { clear. induction a; intros b; cbn; [reflexivity|]. rewrite IHa. lia. }
  rewrite C. cbn. destruct (c_kind c); cbn; lia.
Qed.

Lemma full_slots_length m cs mk : length cs = n_controls m -> length (full_slots m cs mk) = count_full cs.
Proof. intros H. unfold full_slots. rewrite <- H. apply full_slots_length_aux. Qed.

Lemma row_slots_length m i : in_time m + 1 < n_inputs m -> length (row_slots m i) = n_inputs m - 1.
Proof. intros H. unfold row_slots. rewrite app_length, !map_length, !seq_length. lia. Qed.

Lemma rest_slots_length_aux cs : (forall j c, nth_error cs j = Some c -> checked c) ->
  length (flat_map (rest_slots cs) (seq 0 (length cs))) = count_constant cs + count_hypermesh_points cs.
Proof.
  induction cs as [|c cs IH] using rev_ind; intros Hc; [reflexivity|].
  rewrite app_length. cbn [length]. rewrite Nat.add_1_r, seq_S, flat_map_app_r, app_length. cbn [plus flat_map].
  assert (E : flat_map (rest_slots (cs ++ [c])) (seq 0 (length cs)) = flat_map (rest_slots cs) (seq 0 (length cs))).
  { apply flat_map_ext_in. intros j Hj. apply in_seq in Hj. unfold rest_slots. rewrite nth_error_snoc by lia. reflexivity. }
  rewrite E, IH.
  2:{ intros j c0 E0. apply (Hc j). rewrite nth_error_snoc; [exact E0|]. apply nth_error_Some. congruence. }
  assert (Hch : checked c). { apply (Hc (length cs)). rewrite nth_error_app2, Nat.sub_diag by lia. reflexivity. }
  unfold rest_slots. rewrite nth_error_app2, Nat.sub_diag by lia. cbn [nth_error].
  assert (C : forall a b, count_constant (a ++ b) = count_constant a + count_constant b).
  { clear. induction a; intros b; cbn; [reflexivity|]. rewrite IHa. lia. }
  assert (D : forall a b, count_hypermesh_points (a ++ b) = count_hypermesh_points a + count_hypermesh_points b).
  { clear. induction a; intros b; cbn; [reflexivity|]. rewrite IHa. lia. }
  rewrite C, D. cbn. unfold checked in Hch. destruct (c_kind c); cbn; rewrite ?app_nil_r, ?map_length, ?seq_length; lia.
Qed.

Lemma slots_length m direct closed n ins cs : in_time m + 1 < n_inputs m -> facts direct m n ins cs ->
  length (slots m direct closed n cs) = n_variables direct closed m n cs.
Proof.
  intros Ht F. pose proof (f_cs _ _ _ _ _ F) as Hl. pose proof (f_n _ _ _ _ _ F) as Hn.
  unfold slots, n_variables. rewrite app_length.
  rewrite (flat_map_length_const _ _ (n_inputs m - 1 + (if direct then 1 else 2) * count_full cs)).
  2:{ intros i _. unfold point_slots. rewrite !app_length, row_slots_length, full_slots_length by assumption.
      destruct direct; cbn; rewrite ?full_slots_length by assumption; lia. }
  rewrite <- Hl, rest_slots_length_aux by (apply (f_checked _ _ _ _ _ F)).
  rewrite seq_length, Nat.add_assoc. f_equal. f_equal. f_equal. unfold n_elements, offset. destruct closed; lia.
Qed.

Lemma slots_valid m direct closed n ins cs sl : facts direct m n ins cs ->
  unknown m direct closed n cs sl -> exists v, get (ins, cs) sl = Some v.
Proof.
  intros F. destruct sl as [i j|j i|j i]; cbn.
  - intros (Hi & Hj & _). destruct (nth_error ins i) as [r|] eqn:E.
    + destruct (nth_error r j) eqn:E'; [eauto|]. apply nth_error_None in E'.
      rewrite (f_rows _ _ _ _ _ F i r E) in E'. lia.
    + apply nth_error_None in E. rewrite (f_inputs _ _ _ _ _ F) in E. lia.
  - intros (c & E & H). rewrite E. destruct (nth_error (c_values c) i) eqn:E'; [eauto|].
    apply nth_error_None in E'. destruct H as [(K & Hi)|(K & Hi)]; [|lia].
    rewrite (f_values _ _ _ _ _ F j c E K) in E'. lia.
  - intros (-> & Hi & c & E & K). rewrite E. destruct (nth_error (c_rates c) i) eqn:E'; [eauto|].
    apply nth_error_None in E'. rewrite (f_rates _ _ _ _ _ F j c E K) in E'. lia.
Qed.

(** ** Packing *)
Definition slot_bounds (m : car) (o : options) (s : list Q) (sl : slot) : Q * Q :=
  match sl with
  | SIn i j => if j =? in_time m + 1
               then ((- left_limit m (nth i s 0))%Q, right_limit m (nth i s 0%Q))
               else (nth j (o_inputs_lb o) 0%Q, nth j (o_inputs_ub o) 0%Q)
  | SVal j i => (nth j (o_controls_lb o) 0%Q, nth j (o_controls_ub o) 0%Q)
  | SRate j i => (nth j (rate_lb m) 0%Q, nth j (rate_ub m) 0%Q)
  end.
Definition entry_of (m : car) (o : options) (s : list Q) (cf : config) (sl : slot) : entry :=
  (getd cf sl, slot_bounds m o s sl).

Lemma rd_nth {A} (l : list A) i d : i < length l -> rd l i = Ok (nth i l d).
Proof. intros H. unfold rd. rewrite (nth_error_nth' l d H). reflexivity. Qed.

Section Packing.
Context (m : car) (o : options) (s : list Q) (ins : list (list Q)) (cs : list control_variable).
Context (direct : bool).
Context (Hsz : sizes_ok m o) (F : facts direct m (length s) ins cs).
Context (Hrates : direct = false -> rates_bounded m cs).
Notation ent := (entry_of m o s (ins, cs)).

Lemma put_input_wr i j st : i < length s -> j < n_inputs m -> j <> in_time m + 1 ->
  put_input o ins i j st = wr [ent (SIn i j)] st.
Proof.
  intros Hi Hj Hne. destruct Hsz as (Ht & H1 & H2 & _).
  unfold put_input. destruct (rd_ok ins i) as (r & Er & ->). { rewrite (f_inputs _ _ _ _ _ F). exact Hi. }
  cbn [bind]. pose proof (f_rows _ _ _ _ _ F i r Er) as Hr.
  destruct (rd_ok r j) as (v & Ev & ->); [lia|]. cbn [bind].
  rewrite (rd_nth _ j 0%Q) by lia. cbn [bind]. rewrite (rd_nth _ j 0%Q) by lia. cbn [bind].
  rewrite put_wr. f_equal. unfold entry_of, getd, get, slot_bounds. cbn [fst]. rewrite Er, Ev.
  destruct (Nat.eqb_spec j (in_time m + 1)); [contradiction|reflexivity].
Qed.

Lemma put_lateral_wr i st : i < length s -> put_lateral m s ins i st = wr [ent (SIn i (in_time m + 1))] st.
Proof.
  intros Hi. destruct Hsz as (Ht & _).
  unfold put_lateral. destruct (rd_ok ins i) as (r & Er & ->). { rewrite (f_inputs _ _ _ _ _ F). exact Hi. }
  cbn [bind]. pose proof (f_rows _ _ _ _ _ F i r Er) as Hr.
  destruct (rd_ok r (in_time m + 1)) as (v & Ev & ->); [lia|]. cbn [bind].
  rewrite (rd_nth _ i 0%Q) by lia. cbn [bind].
  rewrite put_wr. f_equal. unfold entry_of, getd, get, slot_bounds. cbn [fst]. rewrite Er, Ev, Nat.eqb_refl. reflexivity.
Qed.

Lemma cs_nth j : j < n_controls m -> exists c, nth_error cs j = Some c /\ rd cs j = Ok c.
Proof. intros H. apply rd_ok. rewrite (f_cs _ _ _ _ _ F). exact H. Qed.

Lemma put_full_wr i j st : in_vec st -> i < length s -> j < n_controls m ->
  put_full o cs i j st = wr (map ent (if is_full cs j then [SVal j i] else [])) st.
Proof.
  intros Hv Hi Hj. destruct Hsz as (Ht & _ & _ & H1 & H2 & _). unfold put_full, is_full.
  destruct (cs_nth j Hj) as (c & Ec & ->). cbn [bind]. rewrite Ec.
  destruct (kind_eqb (c_kind c) FULL_MESH) eqn:K; [|symmetry; apply wr_nil; exact Hv].
  apply kind_eqb_spec in K. pose proof (f_values _ _ _ _ _ F j c Ec K) as Hl.
  destruct (rd_ok (c_values c) i) as (v & Ev & ->); [lia|]. cbn [bind].
  rewrite (rd_nth _ j 0%Q) by lia. cbn [bind]. rewrite (rd_nth _ j 0%Q) by lia. cbn [bind].
  rewrite put_wr. f_equal. cbn [map]. unfold entry_of, getd, get, slot_bounds. cbn [snd]. rewrite Ec, Ev. reflexivity.
Qed.

Lemma put_rate_wr i j st : direct = false -> in_vec st -> i < length s -> j < n_controls m ->
  put_rate m cs i j st = wr (map ent (if is_full cs j then [SRate j i] else [])) st.
Proof.
  intros Hd Hv Hi Hj. unfold put_rate, is_full.
  destruct (cs_nth j Hj) as (c & Ec & ->). cbn [bind]. rewrite Ec.
  destruct (kind_eqb (c_kind c) FULL_MESH) eqn:K; [|symmetry; apply wr_nil; exact Hv].
  apply kind_eqb_spec in K. pose proof (f_rates _ _ _ _ _ F j c Ec K) as Hl. rewrite Hd in Hl.
  destruct (Hrates Hd j c Ec K) as [H1 H2].
  destruct (rd_ok (c_rates c) i) as (v & Ev & ->); [lia|]. cbn [bind].
  rewrite (rd_nth _ j 0%Q) by lia. cbn [bind]. rewrite (rd_nth _ j 0%Q) by lia. cbn [bind].
  rewrite put_wr. f_equal. cbn [map]. unfold entry_of, getd, get, slot_bounds. cbn [snd]. rewrite Ec, Ev. reflexivity.
Qed.

Lemma put_values_wr j c st : in_vec st -> nth_error cs j = Some c ->
  put_values o c j st = wr (map ent (map (SVal j) (seq 0 (length (c_values c))))) st.
Proof.
  intros Hv Ec. destruct Hsz as (Ht & _ & _ & H1 & H2 & _). unfold put_values.
  assert (Hj : j < n_controls m). { rewrite <- (f_cs _ _ _ _ _ F). apply nth_error_Some. congruence. }
  rewrite (for_range_wr _ _ _ (fun i => [ent (SVal j i)])); [|exact Hv|].
  - rewrite Nat.sub_0_r, flat_map_single, map_map. reflexivity.
  - intros i st' Hi Hv'. destruct (rd_ok (c_values c) i) as (v & Ev & ->); [lia|]. cbn [bind].
    rewrite (rd_nth _ j 0%Q) by lia. cbn [bind]. rewrite (rd_nth _ j 0%Q) by lia. cbn [bind].
    rewrite put_wr. f_equal. unfold entry_of, getd, get, slot_bounds. cbn [snd]. rewrite Ec, Ev. reflexivity.
Qed.

Lemma full_slots_map mk : map ent (full_slots m cs mk) = flat_map (fun j => map ent (if is_full cs j then [mk j] else [])) (seq 0 (n_controls m)).
Proof. apply map_flat_map. Qed.

Lemma put_point_direct_wr i st : in_vec st -> i < length s ->
  put_point_direct m o s ins cs i st = wr (map ent (row_slots m i ++ full_slots m cs (fun j => SVal j i))) st.
Proof.
  intros Hv Hi. pose proof Hsz as (Ht & _). unfold put_point_direct.
  rewrite (for_range_wr _ _ _ (fun j => [ent (SIn i j)])); [|exact Hv|].
  2:{ intros j st' Hj Hv'. apply put_input_wr; lia. }
  rewrite Nat.sub_0_r, flat_map_single.
  etransitivity.
  { apply wr_bind_in_vec; [exact Hv|]. intros st1 Hv1.
    rewrite put_lateral_wr by exact Hi.
    etransitivity.
    { apply wr_bind_in_vec; [exact Hv1|]. intros st2 Hv2.
      rewrite (for_range_wr _ _ _ (fun j => [ent (SIn i j)])); [|exact Hv2|].
      2:{ intros j st' Hj Hv'. apply put_input_wr; lia. }
      rewrite flat_map_single.
      etransitivity.
      { apply wr_bind_in_vec; [exact Hv2|]. intros st3 Hv3.
        rewrite (for_range_wr _ _ _ (fun j => map ent (if is_full cs j then [SVal j i] else []))); [|exact Hv3|].
        2:{ intros j st' Hj Hv'. apply put_full_wr; [exact Hv'|exact Hi|lia]. }
        rewrite Nat.sub_0_r, <- full_slots_map. reflexivity. }
      apply (wr_app _ _ _ Hv2). }
    apply (wr_app _ _ _ Hv1). }
  rewrite (wr_app _ _ _ Hv). f_equal. unfold row_slots. rewrite !map_app, <- !app_assoc, !map_map. f_equal.
  replace (n_inputs m - (in_time m + 1)) with (S (n_inputs m - (in_time m + 2))) by lia.
  cbn [seq map app]. do 2 f_equal. replace (S (in_time m + 1)) with (in_time m + 2) by lia. reflexivity.
Qed.

Lemma put_point_wr i st : in_vec st -> i < length s ->
  (if direct then put_point_direct m o s ins cs else put_point_derivative m o s ins cs) i st
  = wr (map ent (point_slots m direct cs i)) st.
Proof.
  intros Hv Hi. unfold point_slots. assert (Hd : direct = true \/ direct = false) by (destruct direct; auto).
  destruct Hd as [Hd|Hd]; rewrite Hd.
  - rewrite app_nil_r. apply put_point_direct_wr; assumption.
  - unfold put_point_derivative. rewrite put_point_direct_wr by assumption.
    etransitivity.
    { apply wr_bind_in_vec; [exact Hv|]. intros st1 Hv1.
      rewrite (for_range_wr _ _ _ (fun j => map ent (if is_full cs j then [SRate j i] else []))); [|exact Hv1|].
      2:{ intros j st' Hj Hv'. apply put_rate_wr; [exact Hd|exact Hv'|exact Hi|lia]. }
      rewrite Nat.sub_0_r, <- full_slots_map. reflexivity. }
    rewrite (wr_app _ _ _ Hv), <- map_app, <- app_assoc. reflexivity.
Qed.

Lemma put_rest_wr j st : (direct = false -> no_constant cs) -> in_vec st -> j < n_controls m ->
  (if direct then put_rest_direct o cs else put_rest_derivative o cs) j st = wr (map ent (rest_slots cs j)) st.
Proof.
  intros Hnc Hv Hj. destruct (cs_nth j Hj) as (c & Ec & Er). unfold rest_slots. rewrite Ec.
  assert (Hd : direct = true \/ direct = false) by (destruct direct; auto).
  destruct Hd as [Hd|Hd]; rewrite Hd.
  - unfold put_rest_direct. rewrite Er. cbn [bind].
    destruct (c_kind c); try (symmetry; apply wr_nil; exact Hv); apply put_values_wr; assumption.
  - unfold put_rest_derivative. rewrite Er. cbn [bind].
    destruct (c_kind c) eqn:K; try (symmetry; apply wr_nil; exact Hv); [|apply put_values_wr; assumption].
    exfalso. apply (Hnc Hd c); [eapply nth_error_In; eauto|exact K].
Qed.

Lemma pack_slots closed : (direct = false -> no_constant cs) ->
  pack m o s ins cs direct closed = Ok (map ent (slots m direct closed (length s) cs)).
Proof.
  intros Hnc. unfold pack.
  assert (H0 : in_vec (0, repeat (0%Q, ((- dbl_max)%Q, dbl_max)) (n_variables direct closed m (length s) cs))) by (unfold in_vec; cbn; lia).
  rewrite (for_range_wr _ _ _ (fun i => map ent (point_slots m direct cs i))); [|exact H0|].
  2:{ intros i st Hi Hv. apply put_point_wr; [exact Hv|lia]. }
  rewrite <- map_flat_map.
  transitivity (bind (bind (wr (map ent (flat_map (point_slots m direct cs) (seq (offset closed) (length s - offset closed))))
        (0, repeat (0%Q, ((- dbl_max)%Q, dbl_max)) (n_variables direct closed m (length s) cs)))
      (wr (map ent (flat_map (rest_slots cs) (seq 0 (n_controls m))))))
      (fun st => if fst st =? n_variables direct closed m (length s) cs then Ok (snd st) else Throw)).
  { rewrite bind_assoc. apply wr_bind_in_vec; [exact H0|]. intros st1 Hv1.
    rewrite (for_range_wr _ _ _ (fun j => map ent (rest_slots cs j))); [|exact Hv1|].
    2:{ intros j st Hj Hv. apply put_rest_wr; [exact Hnc|exact Hv|lia]. }
    rewrite Nat.sub_0_r, <- map_flat_map. reflexivity. }
  rewrite (wr_app _ _ _ H0), <- map_app. fold (slots m direct closed (length s) cs).
  assert (Hlen : length (map ent (slots m direct closed (length s) cs)) = n_variables direct closed m (length s) cs).
  { rewrite map_length. eapply slots_length; [apply Hsz|exact F]. }
  rewrite wr_full by (rewrite repeat_length; exact Hlen). cbn [bind fst snd].
  match goal with |- (if ?a =? ?b then _ else _) = _ => replace a with b by (symmetry; exact Hlen) end.
  rewrite Nat.eqb_refl. reflexivity.
Qed.

(** With a CONSTANT control, the derivative formulation writes past the end. *)
Lemma put_rest_derivative_wr j st : in_vec st -> j < n_controls m ->
  put_rest_derivative o cs j st =
  wr (map ent (rest_slots cs j ++ match nth_error cs j with
        | Some c => if kind_eqb (c_kind c) CONSTANT then rest_slots cs j else [] | None => [] end)) st.
Proof.
  intros Hv Hj. destruct (cs_nth j Hj) as (c & Ec & Er). unfold rest_slots. rewrite Ec.
  unfold put_rest_derivative. rewrite Er. cbn [bind].
  destruct (c_kind c) eqn:K; cbn [kind_eqb]; rewrite ?app_nil_r; try (symmetry; apply wr_nil; exact Hv).
  - rewrite put_values_wr by assumption. rewrite map_app.
    etransitivity; [|apply (wr_app _ _ _ Hv)]. apply wr_bind_in_vec; [exact Hv|]. intros st1 Hv1.
    apply put_values_wr; assumption.
  - apply put_values_wr; assumption.
Qed.

Lemma pack_constant_ub closed : direct = false -> ~ no_constant cs -> pack m o s ins cs false closed = UB.
Proof.
  intros Hd Hc. unfold pack.
  assert (H0 : in_vec (0, repeat (0%Q, ((- dbl_max)%Q, dbl_max)) (n_variables false closed m (length s) cs))) by (unfold in_vec; cbn; lia).
  rewrite (for_range_wr _ _ _ (fun i => map ent (point_slots m direct cs i))); [|exact H0|].
  2:{ intros i st Hi Hv. pose proof (put_point_wr i st Hv) as P. rewrite Hd in P. rewrite Hd. apply P. lia. }
  set (more := fun j => rest_slots cs j ++ match nth_error cs j with
        | Some c => if kind_eqb (c_kind c) CONSTANT then rest_slots cs j else [] | None => [] end).
  transitivity (bind (bind (wr (flat_map (fun i => map ent (point_slots m direct cs i)) (seq (offset closed) (length s - offset closed)))
        (0, repeat (0%Q, ((- dbl_max)%Q, dbl_max)) (n_variables false closed m (length s) cs)))
      (wr (flat_map (fun j => map ent (more j)) (seq 0 (n_controls m)))))
      (fun st => if fst st =? n_variables false closed m (length s) cs then Ok (snd st) else Throw)).
  { rewrite bind_assoc. apply wr_bind_in_vec; [exact H0|]. intros st1 Hv1.
    rewrite (for_range_wr _ _ _ (fun j => map ent (more j))); [|exact Hv1|].
    2:{ intros j st Hj Hv. apply put_rest_derivative_wr; [exact Hv|lia]. }
    rewrite Nat.sub_0_r. reflexivity. }
  rewrite (wr_app _ _ _ H0), wr_over; [reflexivity|].
  rewrite repeat_length. rewrite <- !map_flat_map, <- map_app, map_length.
  pose proof (slots_length m direct closed (length s) ins cs) as Hlen.
  rewrite Hd in Hlen at 1 3. rewrite <- Hlen; [|apply Hsz|rewrite <- Hd; exact F].
  unfold slots. rewrite Hd, !app_length. apply Nat.add_lt_mono_l.
  assert (Hex : exists j c, nth_error cs j = Some c /\ c_kind c = CONSTANT).
  { clear - Hc. destruct (existsb (fun c => kind_eqb (c_kind c) CONSTANT) cs) eqn:E.
    - apply existsb_exists in E. destruct E as (c & Hin & K). apply kind_eqb_spec in K.
      apply In_nth_error in Hin. destruct Hin as (j & Ej). eauto.
    - exfalso. apply Hc. intros c Hin K.
      assert (existsb (fun c => kind_eqb (c_kind c) CONSTANT) cs = true); [|congruence].
      apply existsb_exists. exists c. split; [exact Hin|]. rewrite K. reflexivity. }
  destruct Hex as (j & c & Ej & K).
  assert (Hj : In j (seq 0 (n_controls m))). { apply in_seq. rewrite <- (f_cs _ _ _ _ _ F). split; [lia|]. apply nth_error_Some. congruence. }
  assert (Hstrict : length (rest_slots cs j) < length (more j)).
  { unfold more. rewrite Ej, K. cbn [kind_eqb]. rewrite app_length. unfold rest_slots. rewrite Ej, K, map_length, seq_length.
    pose proof (f_checked _ _ _ _ _ F j c Ej) as Hch. unfold checked in Hch. rewrite K in Hch. lia. }
  assert (Hle : forall k, length (rest_slots cs k) <= length (more k)) by (intros k; unfold more; rewrite app_length; lia).
  clear - Hj Hstrict Hle. induction (seq 0 (n_controls m)) as [|k l IH]; [destruct Hj|]. cbn. rewrite !app_length.
  specialize (Hle k). destruct Hj as [->|Hj].
  - assert (length (flat_map (rest_slots cs) l) <= length (flat_map more l)); [|lia].
    clear. induction l; cbn; [lia|]. rewrite !app_length. unfold more at 1. rewrite app_length. lia.
  - specialize (IH Hj). lia.
Qed.
End Packing.
