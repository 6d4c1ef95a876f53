(** C36 and C37: the kerbs found along a computed centreline. *)
From Coq Require Import QArith Qfield Lqa Bool Arith Lia List.
From Verif Require Import M_Controls M_Kerb S_Kerb L_Colloc3 L_Kerb.
Import ListNotations.
Local Open Scope nat_scope.

(** C36. With increasing arclengths, the kerbs of a table follow one another without
    overlap, none is empty, and each goes from one input point to a later one. *)
Theorem C36_kerbs_ordered : forall side width use ext ps ks,
  strictly_increasing ps -> kerb_compute side width use ext ps = Ok ks ->
  ordered ks /\
  (forall k, In k ks -> exists i j, i < j < length ps /\ k_start k = arclength ps i /\ k_finish k = arclength ps j).
Proof.
  intros side width use ext ps ks Hi H. split; [apply (compute_ordered side width use ext ps); assumption|].
  intros k Hk. destruct (compute_runs side width use ext ps ks H) as [R _].
  destruct (R k Hk) as (i & j & (R1 & _) & L & S1 & F1 & _). exists i, j. split; [lia|]. split; assumption.
Qed.

(** The consistency check on appended kerbs never fires when the points are at least 1e-8
    apart. *)
Theorem C36_compute_never_throws : forall side width use ext ps,
  spaced (1 # 10 ^ 8) ps -> exists ks, kerb_compute side width use ext ps = Ok ks.
Proof. intros. apply compute_no_throw. assumption. Qed.

(** The hypothesis on the spacing cannot be dropped: two kerbs, the second shorter than
    1e-8. *)
Theorem C36_compute_can_throw : exists side width use ext ps,
  strictly_increasing ps /\ kerb_compute side width use ext ps = Throw.
Proof.
  exists (-1)%Q, (1)%Q, true, (1)%Q,
    [MkSample 0 1 0; MkSample 1 1 0; MkSample 2 0 0; MkSample 3 1 0;
     MkSample (3 + (1 # 10 ^ 9)) 1 0; MkSample (3 + (2 # 10 ^ 9)) 0 0].
  split; [|vm_compute; reflexivity]. intros i Hi. cbn in Hi.
  do 5 (destruct i as [|i]; [vm_compute; reflexivity|]). lia.
Qed.

(** Evaluation inside a kerb of a computed table gives its width, when it is displayed or
    used, and 0 when it is not used. *)
Theorem C36_evaluate_inside : forall side width use ext ps ks k display s,
  spaced (1 # 10 ^ 8) ps -> kerb_compute side width use ext ps = Ok ks -> In k ks ->
  (k_start k <= s <= k_finish k)%Q ->
  kerb_evaluate display ks s = if display || k_used k then k_width k else 0%Q.
Proof.
  intros side width use ext ps ks k display s Hs H Hk Hin. apply evaluate_inside; [| |exact Hk|exact Hin].
  - apply (compute_ordered side width use ext ps); [|exact H]. apply (spaced_increasing ps (1 # 10 ^ 8)); [reflexivity|exact Hs].
  - intros k1 k2 H1 H2. apply (table_gap side width use ext ps ks); assumption.
Qed.

(** Evaluation away from every kerb, by the tolerance 1e-8, gives 0. *)
Theorem C36_evaluate_outside : forall display ks s,
  (forall k, In k ks -> s <= k_start k - (1 # 10 ^ 8) \/ k_finish k + (1 # 10 ^ 8) <= s)%Q ->
  kerb_evaluate display ks s = 0%Q.
Proof. exact evaluate_outside. Qed.

(** C37. A table holds the kerbs of the runs that are closed by a point below the threshold,
    and nothing else. Missing: a run that reaches the last point. *)
Theorem C37_kerb_iff_run_partial : forall side width use ext ps ks,
  kerb_compute side width use ext ps = Ok ks ->
  (forall i j, run_of ps i j -> j < length ps -> exists k, In k ks /\ kerb_of_run side width use ext ps i j k) /\
  (forall k, In k ks -> exists i j, run_of ps i j /\ j < length ps /\ kerb_of_run side width use ext ps i j k).
Proof. intros side width use ext ps ks H. destruct (compute_runs side width use ext ps ks H). split; assumption. Qed.

(** Two closed runs never share a kerb: the table has one kerb per run. *)
Theorem C37_one_kerb_per_run_partial : forall side width use ext ps ks i1 j1 i2 j2 k,
  strictly_increasing ps -> kerb_compute side width use ext ps = Ok ks -> In k ks ->
  j1 < length ps -> j2 < length ps -> i1 < length ps -> i2 < length ps ->
  kerb_of_run side width use ext ps i1 j1 k -> kerb_of_run side width use ext ps i2 j2 k -> i1 = i2 /\ j1 = j2.
Proof.
  intros side width use ext ps ks i1 j1 i2 j2 k Hi H Hk L1 L2 L3 L4 (S1 & F1 & _) (S2 & F2 & _).
  assert (Inj : forall a b, a < length ps -> b < length ps -> arclength ps a = arclength ps b -> a = b).
  { intros a b Ha Hb E. destruct (Nat.lt_trichotomy a b) as [Hl|[He|Hl]]; [|exact He|]; exfalso;
    [pose proof (increasing_lt ps Hi a b ltac:(lia)) as G|pose proof (increasing_lt ps Hi b a ltac:(lia)) as G]; rewrite E in G; apply (Qlt_irrefl _ G). }
  split; apply Inj; congruence.
Qed.

(** The full statement is false: whatever comes before, a profile that ends above the
    threshold gets no kerb for its last run. *)
Theorem C37_trailing_run_refuted : forall side width use ext ps ks i,
  strictly_increasing ps -> kerb_compute side width use ext ps = Ok ks -> run_of ps i (length ps) ->
  forall k, In k ks -> (k_finish k < arclength ps i)%Q.
Proof.
  intros side width use ext ps ks i Hi H R k Hk. destruct (compute_runs side width use ext ps ks H) as [R1 _].
  destruct (R1 k Hk) as (a & b & Rab & Lb & Sa & Fb & _). rewrite Fb.
  destruct R as (G1 & _ & G2 & _). destruct Rab as (_ & _ & _ & _ & Nb). specialize (Nb Lb).
  apply increasing_lt; [exact Hi|]. split; [|lia]. destruct (Nat.lt_ge_cases b i) as [|Hge]; [assumption|].
  exfalso. apply Nb. apply G2. lia.
Qed.
Theorem C37_no_kerb_lost_refuted : ~ (forall side width use ext ps ks i j,
  strictly_increasing ps -> kerb_compute side width use ext ps = Ok ks -> run_of ps i j ->
  exists k, In k ks /\ k_start k = arclength ps i).
Proof.
  intros A. destruct (A (1)%Q (1)%Q true (1)%Q [MkSample 0 0 0; MkSample 1 1 0; MkSample 2 1 0; MkSample 3 1 0] [] 1 4) as (k & [] & _).
  - intros i Hi. cbn in Hi. do 3 (destruct i as [|i]; [vm_compute; reflexivity|]). lia.
  - vm_compute. reflexivity.
  - split; [lia|]. split; [cbn; lia|]. split.
    + intros k Hk. destruct k as [|[|[|[|k]]]]; try lia; vm_compute; reflexivity.
    + split; [|cbn; lia]. intros _ H. vm_compute in H. discriminate.
Qed.

(** A profile with two closed runs of different kinds: an interior kerb and an exterior
    one. *)
Definition profile : list sample :=
  [MkSample 0 (1 # 2) 0; MkSample 10 (9 # 10) 1; MkSample 20 (19 # 20) 1; MkSample 30 (1 # 2) 1;
   MkSample 40 (9 # 10) (-1); MkSample 50 1 (-1); MkSample 60 (9 # 10) (-1); MkSample 70 (1 # 10) 0].
Definition result_table : list kerb :=
  match kerb_compute 1 2 true (-1) profile with Ok ks => ks | _ => [] end.

Example C36_hypotheses_met :
  spaced (1 # 10 ^ 8) profile /\ kerb_compute 1 2 true (-1) profile = Ok result_table /\ length result_table = 2 /\
  map k_used result_table = [false; true] /\ (kerb_evaluate false result_table 45 == -2)%Q /\
  (kerb_evaluate true result_table 15 == 2)%Q /\ (kerb_evaluate false result_table 15 == 0)%Q /\ (kerb_evaluate true result_table 35 == 0)%Q.
Proof.
  split; [|split; [vm_compute; reflexivity|split; [reflexivity|split; [vm_compute; reflexivity|]]]].
  - intros i Hi. cbn in Hi. do 7 (destruct i as [|i]; [vm_compute; discriminate|]). lia.
  - split; [vm_compute; reflexivity|]. split; [vm_compute; reflexivity|]. split; vm_compute; reflexivity.
Qed.

Example C37_hypotheses_met : run_of profile 1 3 /\ run_of profile 4 7 /\ 7 < length profile /\
  (forall k, In k result_table -> k_start k = arclength profile 1 \/ k_start k = arclength profile 4).
Proof.
  split; [|split; [|split; [cbn; lia|]]].
  - split; [lia|]. split; [cbn; lia|]. split; [intros k Hk; destruct k as [|[|[|k]]]; try lia; vm_compute; reflexivity|].
    split; intros _ H; vm_compute in H; discriminate.
  - split; [lia|]. split; [cbn; lia|]. split; [intros k Hk; do 7 (destruct k as [|k]; [try lia; vm_compute; reflexivity|]); lia|].
    split; intros _ H; vm_compute in H; discriminate.
  - vm_compute. intros k [<-|[<-|[]]]; cbn; [left|right]; reflexivity.
Qed.

Print Assumptions C36_kerbs_ordered.
Print Assumptions C36_compute_never_throws.
Print Assumptions C36_compute_can_throw.
Print Assumptions C36_evaluate_inside.
Print Assumptions C36_evaluate_outside.
Print Assumptions C37_kerb_iff_run_partial.
Print Assumptions C37_one_kerb_per_run_partial.
Print Assumptions C37_trailing_run_refuted.
Print Assumptions C37_no_kerb_lost_refuted.
