(** Lemmas on the kerb tables. *)
From Coq Require Import QArith Qfield Lqa Bool Arith Lia List Setoid.
From Verif Require Import M_Controls L_Pack M_Kerb S_Kerb L_Colloc3.
Import ListNotations.
Local Open Scope nat_scope.

Lemma threshold_above ps i : Qlt_bool threshold (sa_n (at_ ps i)) = true <-> above ps i.
Proof. apply Qlt_bool_iff. Qed.

Section Compute.
Context (side width : Q) (use : bool) (ext : Q) (all : list sample).

(** points [i..j-1] of the input *)
Definition slice (i j : nat) : list sample := firstn (j - i) (skipn i all).

Lemma slice_nil i : slice i i = [].
Proof. unfold slice. rewrite Nat.sub_diag. reflexivity. Qed.

Lemma nth_skipn {A} (l : list A) i k d : nth k (skipn i l) d = nth (i + k) l d.
Proof. revert i. induction l as [|a l IH]; intros [|i]; cbn; try reflexivity; [destruct k; reflexivity|]. apply IH. Qed.
Lemma nth_firstn {A} (l : list A) n k d : k < n -> nth k (firstn n l) d = nth k l d.
Proof. revert n k. induction l as [|a l IH]; intros [|n] [|k] H; cbn; try reflexivity; try lia. apply IH. lia. Qed.
Lemma firstn_S {A} (l : list A) n d : n < length l -> firstn (S n) l = firstn n l ++ [nth n l d].
Proof. revert n. induction l as [|a l IH]; intros [|n] H; cbn in *; try lia; [reflexivity|]. f_equal. apply IH. lia. Qed.

Lemma slice_snoc i j : i <= j < length all -> slice i (S j) = slice i j ++ [at_ all j].
Proof.
  intros H. unfold slice. replace (S j - i) with (S (j - i)) by lia. rewrite (firstn_S _ _ no_sample) by (rewrite skipn_length; lia).
  rewrite nth_skipn. unfold at_. do 3 f_equal. lia.
Qed.
Lemma slice_length i j : i <= j <= length all -> length (slice i j) = j - i.
Proof. intros H. unfold slice. rewrite firstn_length, skipn_length. lia. Qed.
Lemma slice_nth i j k : i + k < j -> j <= length all -> nth k (slice i j) no_sample = at_ all (i + k).
Proof. intros H1 H2. unfold slice. rewrite nth_firstn by lia. apply nth_skipn. Qed.

Lemma hd_nth {A} (l : list A) d : hd d l = nth 0 l d.
Proof. destruct l; reflexivity. Qed.
Lemma last_nth {A} (l : list A) d : last l d = nth (length l - 1) l d.
Proof.
  induction l as [|a l IH]; [reflexivity|]. destruct l as [|b l]; [reflexivity|].
  change (last (a :: b :: l) d) with (last (b :: l) d). rewrite IH. cbn [length]. rewrite !Nat.sub_succ, !Nat.sub_0_r. reflexivity.
Qed.

Lemma trapz_area (f : nat -> Q) (s : nat -> Q) : forall len i,
  trapz (map (fun k => (s k, f k)) (seq i (S len))) = area f s i len.
Proof.
  induction len as [|len IH]; intros i; [reflexivity|].
  change (seq i (S (S len))) with (i :: seq (S i) (S len)). change (seq (S i) (S len)) with (S i :: seq (S (S i)) len).
  cbn [map trapz area]. rewrite <- IH. reflexivity.
Qed.

Lemma slice_map i j : i <= j <= length all -> slice i j = map (at_ all) (seq i (j - i)).
Proof.
  intros H. apply (nth_ext _ _ no_sample (at_ all 0)); [rewrite slice_length, map_length, seq_length by lia; reflexivity|].
  intros k Hk. rewrite slice_length in Hk by lia. rewrite slice_nth by lia. rewrite map_nth, seq_nth by lia. reflexivity.
Qed.

Lemma mean_slice i j : i < j < length all -> mean_integrand side (slice i (S j)) = mean_over side all i j.
Proof.
  intros H. unfold mean_integrand, mean_over. rewrite hd_nth, last_nth, slice_length by lia.
  change (MkSample 0 0 0) with no_sample. rewrite !slice_nth by lia. unfold arclength.
  replace (i + 0) with i by lia. replace (i + (S j - i - 1)) with j by lia.
  rewrite slice_map by lia. rewrite map_map. replace (S j - i) with (S (j - i)) by lia.
  rewrite (trapz_area (fun k => (side * (sa_n (at_ all k) - (1 # 2)) * sa_k (at_ all k))%Q) (arclength all)). reflexivity.
Qed.

Lemma make_kerb_spec i j : i + 2 <= j < length all ->
  kerb_of_run side width use ext all i j (make_kerb side width use ext (slice i (S j))).
Proof.
  intros H. unfold kerb_of_run, make_kerb. cbv zeta. cbn [k_start k_finish k_width k_used].
  rewrite hd_nth, last_nth, slice_length by lia. change (MkSample 0 0 0) with no_sample. rewrite !slice_nth by lia.
  replace (i + 0) with i by lia. replace (i + (S j - i - 1)) with j by lia.
  split; [reflexivity|]. split; [reflexivity|].
  unfold interior. rewrite mean_slice by lia. destruct (Qlt_bool (1 # 1000) (mean_over side all i j)) eqn:E.
  - left. split; [apply Qlt_bool_iff; exact E|]. split; [ring|reflexivity].
  - right. split; [apply Qlt_bool_false; exact E|]. split; reflexivity.
Qed.

(** State after the first [j] points: the current run is [i..j-1], the table holds the
    kerbs of the closed runs. *)
Definition closed_run (j i0 j0 : nat) : Prop := run_of all i0 j0 /\ j0 < j.

Definition state_ok (j : nat) (st : list sample * list kerb) : Prop :=
  exists i, i <= j <= length all /\ fst st = slice i j /\ (forall k, i <= k < j -> above all k) /\ (0 < i -> ~ above all (i - 1)) /\
  (forall k, In k (snd st) -> exists i0 j0, closed_run j i0 j0 /\ k = make_kerb side width use ext (slice i0 (S j0))) /\
  (forall i0 j0, closed_run j i0 j0 -> In (make_kerb side width use ext (slice i0 (S j0))) (snd st)).

Lemma append_ok ks k ks' : append_kerb ks k = Ok ks' -> ks' = ks ++ [k].
Proof.
  unfold append_kerb. destruct (rev ks); [congruence|]. destruct (Qlt_bool _ _); [discriminate|]. destruct (Qlt_bool _ _); [discriminate|]. congruence.
Qed.

Lemma step_ok j st st' : j < length all -> state_ok j st -> kerb_step side width use ext (at_ all j) st = Ok st' -> state_ok (S j) st'.
Proof.
  intros Hj (i & Hij & Hcur & Hab & Hbe & Hk1 & Hk2). destruct st as [cur ks]. cbn [fst snd] in *. subst cur.
  unfold kerb_step. destruct (Qlt_bool threshold (sa_n (at_ all j))) eqn:T.
  - apply threshold_above in T. intros [= <-]. exists i. split; [lia|]. cbn [fst snd]. split; [rewrite slice_snoc by lia; reflexivity|].
    split; [intros k Hk; destruct (Nat.eq_dec k j) as [->|]; [exact T|apply Hab; lia]|]. split; [exact Hbe|].
    assert (Hsame : forall i0 j0, closed_run (S j) i0 j0 <-> closed_run j i0 j0).
    { intros i0 j0. split; intros [R L]; (split; [exact R|]); [|lia]. destruct (Nat.eq_dec j0 j) as [->|]; [|lia].
      destruct R as (_ & _ & _ & _ & R). exfalso. apply R; [lia|exact T]. }
    split.
    + intros k Hk. destruct (Hk1 k Hk) as (i0 & j0 & R & E). exists i0, j0. split; [apply Hsame; exact R|exact E].
    + intros i0 j0 R. apply Hk2. apply Hsame. exact R.
  - assert (T' : ~ above all j) by (rewrite <- threshold_above; congruence).
    assert (Hnew : forall i0 j0, closed_run (S j) i0 j0 -> closed_run j i0 j0 \/ (j0 = j /\ i0 = i /\ i + 2 <= j)).
    { intros i0 j0 [R L]. destruct (Nat.eq_dec j0 j) as [->|]; [|left; split; [exact R|lia]].
      right. destruct R as (R1 & R2 & R3 & R4 & R5). split; [reflexivity|].
      assert (i0 = i); [|subst; split; [reflexivity|lia]].
      destruct (Nat.lt_trichotomy i0 i) as [Hlt|[Heq|Hgt]]; [|exact Heq|].
      - exfalso. apply (Hbe ltac:(lia)). apply R3. lia.
      - exfalso. apply (R4 ltac:(lia)). apply Hab. lia. }
    destruct (1 <? length (slice i j)) eqn:L.
    + apply Nat.ltb_lt in L. rewrite slice_length in L by lia.
      rewrite <- slice_snoc by lia. intros H. apply bind_ok in H. destruct H as (ks' & Ea & [= <-]).
      apply append_ok in Ea. subst ks'. exists (S j). split; [lia|]. cbn [fst snd]. split; [rewrite slice_nil; reflexivity|].
      split; [intros k Hk; lia|]. split; [intros _; rewrite Nat.sub_succ, Nat.sub_0_r; exact T'|].
      assert (Rij : closed_run (S j) i j).
      { split; [|lia]. split; [lia|]. split; [lia|]. split; [exact Hab|]. split; [exact Hbe|]. intros _. exact T'. }
      split.
      * intros k Hk. apply in_app_or in Hk. destruct Hk as [Hk|[<-|[]]].
        -- destruct (Hk1 k Hk) as (i0 & j0 & [R L'] & E). exists i0, j0. split; [split; [exact R|lia]|exact E].
        -- exists i, j. split; [exact Rij|reflexivity].
      * intros i0 j0 R. apply in_or_app. destruct (Hnew i0 j0 R) as [R'|(-> & -> & _)]; [left; apply Hk2; exact R'|right; left; reflexivity].
    + apply Nat.ltb_ge in L. rewrite slice_length in L by lia.
      intros [= <-]. exists (S j). split; [lia|]. cbn [fst snd]. split; [rewrite slice_nil; reflexivity|].
      split; [intros k Hk; lia|]. split; [intros _; rewrite Nat.sub_succ, Nat.sub_0_r; exact T'|].
      split.
      * intros k Hk. destruct (Hk1 k Hk) as (i0 & j0 & [R L'] & E). exists i0, j0. split; [split; [exact R|lia]|exact E].
      * intros i0 j0 R. destruct (Hnew i0 j0 R) as [R'|(-> & -> & Hc)]; [apply Hk2; exact R'|lia].
Qed.

Lemma skipn_at j : j < length all -> skipn j all = at_ all j :: skipn (S j) all.
Proof.
  unfold at_. revert j. induction all as [|a l IH]; intros [|j] H; cbn in *; try lia; [reflexivity|]. apply IH. lia.
Qed.

Lemma loop_state m : forall j st st', length all = j + m -> state_ok j st ->
  kerb_loop side width use ext (skipn j all) st = Ok st' -> state_ok (length all) st'.
Proof.
  induction m as [|m IH]; intros j st st' Hl Hs.
  - rewrite skipn_all2 by lia. cbn. intros [= <-]. replace (length all) with j by lia. exact Hs.
  - rewrite skipn_at by lia. cbn [kerb_loop]. intros H. apply bind_ok in H. destruct H as (st1 & E1 & H).
    apply (IH (S j) st1 st'); [lia|apply (step_ok j st); [lia|exact Hs|exact E1]|exact H].
Qed.

Lemma state_init : state_ok 0 ([], []).
Proof.
  exists 0. split; [lia|]. split; [reflexivity|]. split; [intros; lia|]. split; [intros; lia|]. split; [intros k []|].
  intros i0 j0 [_ H]. lia.
Qed.

Lemma compute_runs ks : kerb_compute side width use ext all = Ok ks ->
  (forall k, In k ks -> exists i j, run_of all i j /\ j < length all /\ kerb_of_run side width use ext all i j k) /\
  (forall i j, run_of all i j -> j < length all -> exists k, In k ks /\ kerb_of_run side width use ext all i j k).
Proof.
  intros H. unfold kerb_compute in H. apply bind_ok in H. destruct H as ([cur ks0] & E & [= <-]).
  pose proof (loop_state (length all) 0 _ _ eq_refl state_init E) as (i & Hi & Hc & _ & _ & H1 & H2). cbn [snd] in *.
  split.
  - intros k Hk. destruct (H1 k Hk) as (i0 & j0 & [R L] & ->). exists i0, j0. split; [exact R|]. split; [exact L|].
    apply make_kerb_spec. destruct R as (R1 & _). lia.
  - intros i0 j0 R L. exists (make_kerb side width use ext (slice i0 (S j0))). split; [apply H2; split; assumption|].
    apply make_kerb_spec. destruct R as (R1 & _). lia.
Qed.

(** Order of the table, and absence of exceptions. *)
Lemma increasing_lt : strictly_increasing all -> forall i j, i < j < length all -> (arclength all i < arclength all j)%Q.
Proof.
  intros Hi i j [Hij Hj]. induction j as [|j IH]; [lia|]. destruct (Nat.eq_dec i j) as [->|].
  - apply Hi. exact Hj.
  - apply Qlt_trans with (arclength all j); [apply IH; lia|apply Hi; exact Hj].
Qed.

Lemma ordered_snoc ks k : ordered ks -> (k_start k < k_finish k)%Q -> Forall (fun b => (k_finish b < k_start k)%Q) ks -> ordered (ks ++ [k]).
Proof.
  induction ks as [|b ks IH]; cbn.
  - intros _ H _. split; [exact H|]. split; [constructor|exact I].
  - intros (H1 & H2 & H3) Hk Hf. inversion Hf; subst. split; [exact H1|]. split; [|apply IH; assumption].
    apply Forall_app. split; [exact H2|]. constructor; [assumption|constructor].
Qed.

(** table bounded by the current position *)
Definition table_ok (j : nat) (st : list sample * list kerb) : Prop :=
  ordered (snd st) /\ exists i, i <= j <= length all /\ fst st = slice i j /\
  Forall (fun b => exists j0, j0 < i /\ k_finish b = arclength all j0) (snd st).

Lemma last_in {A} (l : list A) b r : rev l = b :: r -> In b l.
Proof. intros H. apply in_rev. rewrite H. left. reflexivity. Qed.

Lemma append_succeeds j i ks : strictly_increasing all -> i + 2 <= j < length all ->
  (1 # 10 ^ 8 <= arclength all j - arclength all i)%Q \/ ks = [] ->
  Forall (fun b => exists j0, j0 < i /\ k_finish b = arclength all j0) ks ->
  append_kerb ks (make_kerb side width use ext (slice i (S j))) = Ok (ks ++ [make_kerb side width use ext (slice i (S j))]).
Proof.
  intros Hi Hij Hsp Hf. destruct (make_kerb_spec i j Hij) as (Es & Ef & _). unfold append_kerb.
  destruct (rev ks) as [|b r] eqn:Er; [reflexivity|]. apply last_in in Er. rewrite Forall_forall in Hf.
  destruct (Hf b Er) as (j0 & Hj0 & Eb). rewrite Es, Ef, Eb.
  assert (H1 : (arclength all j0 < arclength all i)%Q) by (apply increasing_lt; [exact Hi|lia]).
  destruct (Qlt_bool (arclength all i) (arclength all j0)) eqn:B1.
  { apply Qlt_bool_iff in B1. exfalso. apply (Qlt_irrefl (arclength all i)). apply Qlt_trans with (arclength all j0); assumption. }
  destruct (Qlt_bool (arclength all j - eps8) (arclength all i)) eqn:B2; [|reflexivity].
  apply Qlt_bool_iff in B2. destruct Hsp as [Hsp | ->]; [|destruct Er]. unfold eps8 in B2. exfalso. lra.
Qed.

Lemma step_table j st st' : strictly_increasing all -> j < length all -> table_ok j st ->
  kerb_step side width use ext (at_ all j) st = Ok st' -> table_ok (S j) st'.
Proof.
  intros Hi Hj (Ho & i & Hij & Hcur & Hf). destruct st as [cur ks]. cbn [fst snd] in *. subst cur.
  unfold kerb_step. destruct (Qlt_bool threshold (sa_n (at_ all j))) eqn:T.
  - intros [= <-]. split; [exact Ho|]. exists i. split; [lia|]. cbn [fst snd]. split; [rewrite slice_snoc by lia; reflexivity|exact Hf].
  - assert (Hf' : Forall (fun b => exists j0, j0 < S j /\ k_finish b = arclength all j0) ks).
    { eapply Forall_impl; [|exact Hf]. intros b (j0 & H & E). exists j0. split; [lia|exact E]. }
    destruct (1 <? length (slice i j)) eqn:L.
    + apply Nat.ltb_lt in L. rewrite slice_length in L by lia. rewrite <- slice_snoc by lia. intros H. apply bind_ok in H. destruct H as (ks' & Ea & [= <-]).
      apply append_ok in Ea. subst ks'. destruct (make_kerb_spec i j ltac:(lia)) as (Es & Ef & _).
      split.
      * cbn [snd]. apply ordered_snoc; [exact Ho|rewrite Es, Ef; apply increasing_lt; [exact Hi|lia]|].
        eapply Forall_impl; [|exact Hf]. intros b (j0 & H & E). rewrite E, Es. apply increasing_lt; [exact Hi|lia].
      * exists (S j). split; [lia|]. cbn [fst snd]. split; [rewrite slice_nil; reflexivity|]. apply Forall_app. split; [exact Hf'|].
        constructor; [|constructor]. exists j. split; [lia|exact Ef].
    + intros [= <-]. split; [exact Ho|]. exists (S j). split; [lia|]. cbn [fst snd]. split; [rewrite slice_nil; reflexivity|exact Hf'].
Qed.

Lemma loop_table m : forall j st st', strictly_increasing all -> length all = j + m -> table_ok j st ->
  kerb_loop side width use ext (skipn j all) st = Ok st' -> table_ok (length all) st'.
Proof.
  induction m as [|m IH]; intros j st st' Hi Hl Hs.
  - rewrite skipn_all2 by lia. cbn. intros [= <-]. replace (length all) with j by lia. exact Hs.
  - rewrite skipn_at by lia. cbn [kerb_loop]. intros H. apply bind_ok in H. destruct H as (st1 & E1 & H).
    apply (IH (S j) st1 st'); [exact Hi|lia|apply (step_table j st); [exact Hi|lia|exact Hs|exact E1]|exact H].
Qed.

Lemma table_init : table_ok 0 ([], []).
Proof. split; [exact I|]. exists 0. split; [lia|]. split; [reflexivity|constructor]. Qed.

Lemma spaced_far d : (0 <= d)%Q -> spaced d all -> forall i j, i < j < length all -> (d <= arclength all j - arclength all i)%Q.
Proof.
  intros Hd Hs i j [Hij Hj]. induction j as [|j IH]; [lia|]. specialize (Hs j Hj). destruct (Nat.eq_dec i j) as [->|]; [exact Hs|].
  specialize (IH ltac:(lia) ltac:(lia)). lra.
Qed.

Lemma spaced_increasing d : (0 < d)%Q -> spaced d all -> strictly_increasing all.
Proof. intros Hd Hs i Hi. specialize (Hs i Hi). lra. Qed.

Lemma loop_no_throw m : forall j st, spaced (1 # 10 ^ 8) all -> length all = j + m -> table_ok j st ->
  exists st', kerb_loop side width use ext (skipn j all) st = Ok st'.
Proof.
  induction m as [|m IH]; intros j st Hsp Hl Hs.
  - rewrite skipn_all2 by lia. eexists. reflexivity.
  - rewrite skipn_at by lia. cbn [kerb_loop].
    assert (Hi : strictly_increasing all) by (apply (spaced_increasing (1 # 10 ^ 8)); [reflexivity|exact Hsp]).
    assert (Hst : exists st1, kerb_step side width use ext (at_ all j) st = Ok st1).
    { destruct Hs as (Ho & i & Hij & Hcur & Hf). destruct st as [cur ks]. cbn [fst snd] in *. subst cur.
      unfold kerb_step. destruct (Qlt_bool threshold (sa_n (at_ all j))); [eexists; reflexivity|].
      destruct (1 <? length (slice i j)) eqn:L; [|eexists; reflexivity].
      apply Nat.ltb_lt in L. rewrite slice_length in L by lia. rewrite <- slice_snoc by lia.
      rewrite append_succeeds; [eexists; reflexivity|exact Hi|lia| |exact Hf].
      left. apply spaced_far; [discriminate|exact Hsp|lia]. }
    destruct Hst as (st1 & E1). rewrite E1. cbn [bind]. apply (IH (S j) st1 Hsp); [lia|]. apply (step_table j st); [exact Hi|lia|exact Hs|exact E1].
Qed.

Lemma compute_ordered ks : strictly_increasing all -> kerb_compute side width use ext all = Ok ks -> ordered ks.
Proof.
  intros Hi H. unfold kerb_compute in H. apply bind_ok in H. destruct H as ([cur ks0] & E & [= <-]).
  apply (loop_table (length all) 0 _ _ Hi eq_refl table_init E).
Qed.

Lemma compute_no_throw : spaced (1 # 10 ^ 8) all -> exists ks, kerb_compute side width use ext all = Ok ks.
Proof.
  intros Hs. unfold kerb_compute. destruct (loop_no_throw (length all) 0 _ Hs eq_refl table_init) as [[cur ks] E].
  change (skipn 0 all) with all in E. rewrite E. eexists. reflexivity.
Qed.

(** kerbs of a computed table are at least as far apart as the points *)
Lemma table_gap ks k1 k2 : spaced (1 # 10 ^ 8) all -> kerb_compute side width use ext all = Ok ks ->
  In k1 ks -> In k2 ks -> (k_finish k1 < k_start k2)%Q -> (k_finish k1 + eps8 <= k_start k2)%Q.
Proof.
  intros Hs E H1 H2 Hlt. destruct (compute_runs ks E) as [R _].
  destruct (R k1 H1) as (i1 & j1 & _ & L1 & _ & F1 & _). destruct (R k2 H2) as (i2 & j2 & (R2 & _) & L2 & S2 & _ & _).
  rewrite F1, S2 in *. destruct (Nat.lt_ge_cases j1 i2) as [Hj|Hj].
  - pose proof (spaced_far (1 # 10 ^ 8) ltac:(discriminate) Hs j1 i2 ltac:(lia)). unfold eps8. lra.
  - exfalso. destruct (Nat.eq_dec i2 j1) as [->|].
    + apply (Qlt_irrefl _ Hlt).
    + pose proof (spaced_far (1 # 10 ^ 8) ltac:(discriminate) Hs i2 j1 ltac:(lia)). assert (0 < 1 # 10 ^ 8)%Q by reflexivity. lra.
Qed.
End Compute.

Lemma evaluate_outside display ks s : (forall k, In k ks -> s <= k_start k - eps8 \/ k_finish k + eps8 <= s)%Q -> kerb_evaluate display ks s = 0%Q.
Proof.
  induction ks as [|k ks IH]; intros H; cbn; [reflexivity|].
  destruct (Qlt_bool (k_start k - eps8) s && Qlt_bool s (k_finish k + eps8)) eqn:E.
  - apply andb_prop in E. destruct E as [E1 E2]. apply Qlt_bool_iff in E1, E2. destruct (H k (or_introl eq_refl)) as [K|K]; exfalso; lra.
  - apply IH. intros k' Hk'. apply H. right. exact Hk'.
Qed.

Lemma evaluate_inside display ks k s : ordered ks ->
  (forall k1 k2, In k1 ks -> In k2 ks -> k_finish k1 < k_start k2 -> k_finish k1 + eps8 <= k_start k2)%Q ->
  In k ks -> (k_start k <= s <= k_finish k)%Q -> kerb_evaluate display ks s = if display || k_used k then k_width k else 0%Q.
Proof.
  induction ks as [|b ks IH]; intros Ho Hg Hin Hs; [destruct Hin|].
  destruct Ho as (Hb & Hf & Ho). cbn [kerb_evaluate]. destruct Hin as [->|Hin].
  - assert (E : Qlt_bool (k_start k - eps8) s && Qlt_bool s (k_finish k + eps8) = true).
    { assert (0 < eps8)%Q by reflexivity. apply andb_true_intro. split; apply Qlt_bool_iff; lra. }
    rewrite E. reflexivity.
  - rewrite Forall_forall in Hf. pose proof (Hf k Hin) as Hlt.
    pose proof (Hg b k (or_introl eq_refl) (or_intror Hin) Hlt) as Hge.
    assert (E : Qlt_bool s (k_finish b + eps8) = false) by (apply Qlt_bool_false; lra).
    rewrite E, andb_false_r. apply IH; auto. intros k1 k2 H1 H2. apply Hg; right; assumption.
Qed.
