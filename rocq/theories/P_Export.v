(** Property theorems C119: the lap returned is the point the solver found, failures are
    reported, and there is one derivative of the lap for every declared parameter. *)
From Coq Require Import QArith Bool Arith Lia List.
From Verif Require Import M_Controls S_Controls L_Controls M_Laptime S_Laptime L_Pack L_Pack2 L_Pack3 L_Pack4 P_Controls
  M_Export S_Export.
Import ListNotations.
Local Open Scope nat_scope.

(** ** Lemmas *)
Lemma loop_each {A} n : forall a (body : nat -> A -> res A) st st', loop n a body st = Ok st' ->
  forall k, k < n -> exists s1 s2, body (a + k) s1 = Ok s2.
Proof.
  induction n as [|n IH]; intros a body st st' H k Hk; [lia|]. cbn in H. apply bind_ok in H as (s1 & H1 & H2).
  destruct k as [|k]; [rewrite Nat.add_0_r; eauto|]. destruct (IH (S a) body s1 st' H2 k ltac:(lia)) as (x & y & E).
  exists x, y. now replace (a + S k) with (S a + k) by lia.
Qed.
Lemma for_range_each {A} a b (body : nat -> A -> res A) st st' : for_range a b body st = Ok st' ->
  forall k, a <= k < b -> exists s1 s2, body k s1 = Ok s2.
Proof.
  intros H k Hk. destruct (loop_each _ _ _ _ _ H (k - a) ltac:(lia)) as (x & y & E). exists x, y.
  now replace (a + (k - a)) with k in E by lia.
Qed.

Lemma packed_rates m o s inputs cs closed es : guess_ok false m s inputs cs ->
  pack m o s inputs cs false closed = Ok es -> rates_bounded m cs.
Proof.
  intros G H. destruct G as (_ & _ & Hn & Hl & _). unfold pack in H. apply bind_ok in H as (st & H & _).
  destruct (for_range_each _ _ _ _ _ H 1) as (s1 & s2 & E); [destruct closed; cbn; lia|].
  unfold put_point_derivative in E. apply bind_ok in E as (s3 & _ & E).
  intros j c Ej K. assert (Hj : j < n_controls m) by (rewrite <- Hl; apply nth_error_Some; congruence).
  destruct (for_range_each _ _ _ _ _ E j ltac:(lia)) as (s4 & s5 & E2). unfold put_rate in E2.
  apply bind_ok in E2 as (c' & Ec & E2). apply rd_inv in Ec. rewrite Ej in Ec. injection Ec as <-.
  rewrite K in E2. cbn in E2. apply bind_ok in E2 as (v & _ & E2). apply bind_ok in E2 as (lb & Elb & E2).
  apply bind_ok in E2 as (ub & Eub & _). apply rd_inv in Elb, Eub.
  split; apply nth_error_Some; congruence.
Qed.
Lemma problem_derivative m o s inputs cs closed es : sizes_ok m o -> guess_ok false m s inputs cs ->
  pack m o s inputs cs false closed = Ok es -> no_constant cs /\ rates_bounded m cs.
Proof.
  intros Z G H. pose proof (packed_rates _ _ _ _ _ _ _ G H) as R. split; [|exact R].
  intros c Hin K. assert (N : ~ no_constant cs) by (intros N; exact (N c Hin K)).
  rewrite (pack_constant _ _ _ _ _ _ Z G R N) in H. discriminate.
Qed.

Lemma all_ok_seq {A} (f : nat -> res A) l k : length l = k ->
  (forall i a, nth_error l i = Some a -> f i = Ok a) -> all_ok (map f (seq 0 k)) = Ok l.
Proof.
  enough (G : forall l a k, length l = k -> (forall i x, nth_error l i = Some x -> f (a + i) = Ok x) ->
    all_ok (map f (seq a k)) = Ok l) by (intros; apply G; auto).
  clear l k. induction l as [|x l IH]; intros a k Hk H; subst k; [reflexivity|]. cbn [length seq map all_ok].
  rewrite <- (Nat.add_0_r a) at 1. rewrite (H 0 x eq_refl). cbn [bind]. rewrite (IH (S a) (length l) eq_refl); [reflexivity|].
  intros i y E. replace (S a + i) with (a + S i) by lia. apply H. exact E.
Qed.
Lemma all_ok_seq_inv {A} (f : nat -> res A) l k : all_ok (map f (seq 0 k)) = Ok l ->
  length l = k /\ forall i a, nth_error l i = Some a -> f i = Ok a.
Proof.
  enough (G : forall k a l, all_ok (map f (seq a k)) = Ok l -> length l = k /\ forall i x, nth_error l i = Some x -> f (a + i) = Ok x)
    by (intros H; destruct (G _ _ _ H); auto).
  clear l k. induction k as [|k IH]; intros a l H; cbn in H.
  - injection H as <-. split; [reflexivity|]. intros [|i]; discriminate.
  - apply bind_ok in H as (x & Hx & H). apply bind_ok in H as (t & Ht & H). injection H as <-.
    destruct (IH _ _ Ht) as [L I]. split; [cbn; congruence|]. intros [|i] y E; cbn in E.
    + injection E as <-. now rewrite Nat.add_0_r.
    + replace (a + S i) with (S a + i) by lia. auto.
Qed.
Lemma nth_rd {A} (l : list A) i a : nth_error l i = Some a -> rd l i = Ok a.
Proof. intros E. unfold rd. now rewrite E. Qed.

Lemma copy_into_same src dst : length src = length dst -> copy_into src dst = Ok src.
Proof.
  intros H. unfold copy_into. rewrite H, Nat.leb_refl. rewrite skipn_all2 by lia. now rewrite app_nil_r.
Qed.

(** what is exported is what the objective holds for the vector *)
Lemma export_unpack m direct closed q0 u0 du0 n cs x k ins0 ins fcs :
  facts direct m n ins0 cs -> same_shape (ins0, cs) (ins, fcs) ->
  unpack m x direct closed q0 u0 du0 n cs = Ok (k, (ins, fcs)) ->
  export_solution m direct closed q0 u0 du0 n cs x = Ok (ins, fcs).
Proof.
  intros F S U. pose proof (facts_shape _ _ _ _ _ _ _ F S) as F'. destruct S as (_ & H2 & _ & H4). cbn in H2, H4.
  unfold export_solution. rewrite U. cbn [bind].
  rewrite (all_ok_seq _ ins n (f_inputs _ _ _ _ _ F')).
  2: { intros i row E. unfold export_row. rewrite (nth_rd _ _ _ E). cbn [bind].
       apply all_ok_seq; [exact (f_rows _ _ _ _ _ F' i row E)|]. intros. now apply nth_rd. }
  cbn [bind]. rewrite (all_ok_seq _ fcs (n_controls m) (f_cs _ _ _ _ _ F')); [reflexivity|].
  intros j c' E'. destruct (nth_error_transport _ _ _ _ (eq_sym H2) E') as [c E].
  destruct (H4 j c c' E E') as (K & Hm & Hd & Hv & Hr). rewrite (nth_rd _ _ _ E'). cbn [bind].
  rewrite (nth_rd _ _ (clear_control c)) by (now rewrite nth_error_map, E). cbn [bind].
  pose proof (f_checked _ _ _ _ _ F' j c' E') as C. pose proof (f_checked _ _ _ _ _ F j c E) as C0.
  destruct c as [k0 h v r d], c' as [k1 h1 v1 r1 d1]. cbn in *. subst k1 h1 d1. unfold checked in C, C0. cbn in C, C0.
  unfold export_control, clear_control. cbn. destruct k0; cbn.
  - destruct C as (-> & -> & -> & ?), C0 as (? & -> & -> & _). reflexivity.
  - rewrite copy_into_same by (rewrite map_length; congruence). cbn.
    destruct C as (_ & _ & -> & _), C0 as (_ & _ & -> & _). reflexivity.
  - rewrite copy_into_same by (rewrite map_length; congruence). cbn.
    destruct C as (_ & -> & _), C0 as (_ & -> & _). reflexivity.
  - rewrite !copy_into_same by (rewrite map_length; congruence). reflexivity.
Qed.

Lemma start_lengths m o direct closed s inputs cs q0 u0 du0 es :
  problem m o direct closed s inputs cs q0 u0 du0 es ->
  closed = false -> length q0 = n_inputs m /\ length u0 = n_controls m /\ (direct = false -> length du0 = n_controls m).
Proof.
  intros [Z G St _] Hc. pose proof (guess_facts _ _ _ _ _ G) as F. destruct Z as (_ & _ & _ & _ & _ & Hdef).
  destruct (start_of_spec _ _ _ _ _ _ _ _ Hdef F (St Hc)) as (A & B & C & _). auto.
Qed.

(** exporting a vector of the right length, with any controls of the same structure *)
Lemma export_ok m o direct closed s inputs cs q0 u0 du0 es ins1 cs1 x :
  problem m o direct closed s inputs cs q0 u0 du0 es -> same_shape (inputs, cs) (ins1, cs1) -> length x = length es ->
  exists ins' cs', export_solution m direct closed q0 u0 du0 (length s) cs1 x = Ok (ins', cs') /\
    same_shape (inputs, cs) (ins', cs') /\
    described_by m o direct closed s (ins', cs') es x /\
    (closed = false -> forall j c, nth_error cs j = Some c -> c_kind c = FULL_MESH ->
       get (ins', cs') (SVal j 0) = nth_error u0 j).
Proof.
  intros P S Hx. pose proof (start_lengths _ _ _ _ _ _ _ _ _ _ _ P) as Hst. destruct P as [Z G St Pk].
  pose proof (guess_facts _ _ _ _ _ G) as F. pose proof Z as (Ht & _).
  pose proof (facts_shape _ _ _ _ _ _ _ F S) as F1.
  assert (D : direct = false -> no_constant cs /\ rates_bounded m cs) by (intros ->; eapply problem_derivative; eauto).
  assert (Les : length es = n_variables direct closed m (length s) cs).
  { destruct (pack_ok direct m o s inputs cs closed Z G) as (es2 & E2 & L2);
      [intros Hd; apply (D Hd)|]. rewrite Pk in E2. injection E2 as <-. exact L2. }
  assert (N1 : n_variables direct closed m (length s) cs1 = n_variables direct closed m (length s) cs).
  { rewrite <- (slots_length m direct closed (length s) ins1 cs1 Ht F1), <- (slots_length m direct closed (length s) inputs cs Ht F).
    now rewrite (slots_shape m direct closed (length s) _ _ _ _ S). }
  destruct (unpack_spec m direct closed (length s) ins1 cs1 x q0 u0 du0 Ht F1) as ((ins' & cs') & U & Hs & Hsl & _ & Ho);
    [congruence|exact Hst|].
  exists ins', cs'. split; [eapply export_unpack; eauto|].
  assert (S' : same_shape (inputs, cs) (ins', cs')) by (eapply same_shape_trans; eauto). split; [exact S'|].
  pose proof (facts_shape _ _ _ _ _ _ _ F S') as F'. destruct (S') as (_ & H2 & _ & H4). cbn in H2, H4. split.
  - assert (D' : direct = false -> no_constant cs' /\ rates_bounded m cs').
    { intros Hd. destruct (D Hd) as [Hn Hr]. split.
      - intros c' Hin. apply In_nth_error in Hin as (j & Ej'). destruct (nth_error_transport _ _ _ _ (eq_sym H2) Ej') as [c Ej].
        destruct (H4 j c c' Ej Ej') as (K & _). rewrite <- K. apply Hn. eapply nth_error_In; eauto.
      - intros j c' Ej' K'. destruct (nth_error_transport _ _ _ _ (eq_sym H2) Ej') as [c Ej].
        destruct (H4 j c c' Ej Ej') as (K & _). apply (Hr j c Ej). congruence. }
    rewrite <- (slots_shape m direct closed (length s) _ _ _ _ S) in Hsl.
    exists (map (entry_of m o s (ins', cs')) (slots m direct closed (length s) cs)). cbn [fst snd].
    split; [rewrite (slots_shape m direct closed (length s) _ _ _ _ S');
            apply pack_slots; [exact Z|exact F'|intros Hd; apply (D' Hd)|intros Hd; apply (D' Hd)]|].
    assert (E0 : es = map (entry_of m o s (inputs, cs)) (slots m direct closed (length s) cs)).
    { assert (E1 : pack m o s inputs cs direct closed = Ok (map (entry_of m o s (inputs, cs)) (slots m direct closed (length s) cs)))
        by (apply pack_slots; [exact Z|exact F|intros Hd; apply (D Hd)|intros Hd; apply (D Hd)]). congruence. }
    split; [apply map_entries_fst; [rewrite E0, map_length in Hx; lia|exact Hsl]|]. rewrite E0, !map_map. reflexivity.
  - intros Hc j c Ej K. destruct S as (_ & S2 & _ & S4). cbn in S2, S4.
    destruct (nth_error_transport _ _ _ _ S2 Ej) as [c1 E1]. destruct (S4 j c c1 Ej E1) as (K1 & _).
    apply (proj2 (Ho Hc) j c1 E1). congruence.
Qed.

Lemma shape_kinds i1 c1 i2 c2 : same_shape (i1, c1) (i2, c2) -> same_kinds c1 c2.
Proof.
  intros (_ & H2 & _ & H4). cbn in *. split; [congruence|]. intros j c c' E E'.
  destruct (H4 j c c' E E') as (? & ? & ? & _). auto.
Qed.
Lemma n_variables_shape m direct closed n i1 c1 i2 c2 : in_time m + 1 < n_inputs m -> facts direct m n i1 c1 ->
  same_shape (i1, c1) (i2, c2) -> n_variables direct closed m n c2 = n_variables direct closed m n c1.
Proof.
  intros Ht F S. rewrite <- (slots_length m direct closed n i2 c2 Ht (facts_shape _ _ _ _ _ _ _ F S)),
    <- (slots_length m direct closed n i1 c1 Ht F). now rewrite (slots_shape m direct closed n _ _ _ _ S).
Qed.
Lemma packed_length m o direct closed s inputs cs q0 u0 du0 es :
  problem m o direct closed s inputs cs q0 u0 du0 es -> length es = n_variables direct closed m (length s) cs.
Proof.
  intros [Z G _ Pk].
  destruct (pack_ok direct m o s inputs cs closed Z G) as (es2 & E2 & L2); [|congruence].
  intros ->. eapply problem_derivative; eauto.
Qed.
Lemma resize_length k v : length (resize k v) = k.
Proof. unfold resize. rewrite app_length, firstn_length, repeat_length. lia. Qed.
Lemma resize_long k v : k <= length v -> resize k v = firstn k v.
Proof. intros H. unfold resize. replace (k - length v) with 0 by lia. apply app_nil_r. Qed.
Lemma rd_ub {A} (l : list A) i : length l <= i -> rd l i = UB.
Proof. intros H. unfold rd. apply nth_error_None in H. now rewrite H. Qed.

Section After.
Context {Par : Type}.
Context (m : car) (o : options) (direct closed : bool) (s : list Q) (inputs : list (list Q)) (cs : list control_variable)
  (q0 u0 du0 : list Q) (es : list entry).
Context (tf check : bool) (declared : list Par) (analyse : list Par -> analysis) (previous : list exported) (r : solver_result).
Local Notation run := (after_solve m direct closed q0 u0 du0 (length s) tf check declared analyse cs previous r).

Lemma after_inv l : problem m o direct closed s inputs cs q0 u0 du0 es -> length (sv_x r) = length es -> run = Ok l ->
  (tf = true -> sv_success r = true) /\ l_success l = sv_success r /\
  export_solution m direct closed q0 u0 du0 (length s) cs (sv_x r) = Ok (l_solution l) /\
  same_shape (inputs, cs) (l_solution l) /\
  (if check then an_optimal (analyse (handed_over direct declared)) = true /\
     length (l_derivatives l) = length declared /\
     forall i d, nth_error (l_derivatives l) i = Some d ->
       exists row d0, nth_error (an_rows (analyse (handed_over direct declared))) i = Some row /\
         export_solution m direct closed q0 u0 du0 (length s) (snd (l_solution l))
           (resize (n_variables direct closed m (length s) cs) row) = Ok d0 /\
         clean_sensitivity closed (fst d0) (snd d0) = Ok d
   else l_derivatives l = previous).
Proof.
  intros P Hx H. destruct (export_ok _ _ _ _ _ _ _ _ _ _ _ inputs cs (sv_x r) P (same_shape_refl _) Hx) as (i1 & c1 & E1 & S1 & _).
  unfold after_solve in H. destruct (negb (sv_success r) && tf) eqn:Et; [discriminate|].
  apply bind_ok in H as (dx & Hdx & H). apply bind_ok in H as (sol & Hs & H). apply bind_ok in H as (ds & Hds & H).
  injection H as <-. cbn [l_success l_solution l_derivatives]. rewrite E1 in Hs. injection Hs as <-.
  split; [intros ->; destruct (sv_success r); [reflexivity|discriminate]|]. split; [reflexivity|].
  split; [exact E1|]. split; [exact S1|].
  destruct check; [|congruence]. destruct (an_optimal _) eqn:Eo; [|discriminate]. injection Hdx as <-.
  split; [reflexivity|]. apply all_ok_seq_inv in Hds as [L I]. split; [exact L|].
  intros i d E. specialize (I i d E). apply bind_ok in I as (row' & Er & I). apply bind_ok in I as (d0 & Ed & I).
  apply rd_inv in Er. rewrite nth_error_map in Er. destruct (nth_error (an_rows _) i) as [row|] eqn:Ea; [|discriminate].
  injection Er as <-. exists row, d0. auto.
Qed.
End After.

(** ** C119 *)
(** The lap that is returned is the point the solver found: its controls are optimised as
    asked for and building the problem for it gives the solver's vector. *)
Theorem C119_solution {Par} m o direct closed s inputs cs q0 u0 du0 es tf check (declared : list Par) analyse previous r l :
  problem m o direct closed s inputs cs q0 u0 du0 es -> length (sv_x r) = length es ->
  after_solve m direct closed q0 u0 du0 (length s) tf check declared analyse cs previous r = Ok l ->
  same_kinds cs (snd (l_solution l)) /\ guess_ok direct m s (fst (l_solution l)) (snd (l_solution l)) /\
  described_by m o direct closed s (l_solution l) es (sv_x r).
Proof.
  intros P Hx H. destruct (after_inv _ _ _ _ _ _ _ _ _ _ _ _ _ _ _ _ _ _ P Hx H) as (_ & _ & E & _).
  destruct (export_ok _ _ _ _ _ _ _ _ _ _ _ inputs cs (sv_x r) P (same_shape_refl _) Hx) as (i1 & c1 & E1 & S1 & D & _).
  rewrite E1 in E. injection E as E. rewrite <- E. cbn [fst snd]. split; [eapply shape_kinds; eauto|]. split; [|exact D].
  apply facts_guess. eapply facts_shape; [|exact S1]. apply guess_facts. apply (p_guess _ _ _ _ _ _ _ _ _ _ _ P).
Qed.

(** A failure of the solver is thrown when the user asked for it, and recorded otherwise;
    sensitivities are only reported for points that passed the optimality check. *)
Theorem C119_failure_reported {Par} m o direct closed s inputs cs q0 u0 du0 es tf check (declared : list Par) analyse previous r :
  problem m o direct closed s inputs cs q0 u0 du0 es -> length (sv_x r) = length es ->
  (tf = true -> sv_success r = false ->
     after_solve m direct closed q0 u0 du0 (length s) tf check declared analyse cs previous r = Throw) /\
  forall l, after_solve m direct closed q0 u0 du0 (length s) tf check declared analyse cs previous r = Ok l ->
    l_success l = sv_success r /\ (tf = true -> l_success l = true) /\
    (check = true -> an_optimal (analyse (handed_over direct declared)) = true) /\
    (check = false -> l_derivatives l = previous).
Proof.
  intros P Hx. split.
  - intros -> F. unfold after_solve. now rewrite F.
  - intros l H. destruct (after_inv _ _ _ _ _ _ _ _ _ _ _ _ _ _ _ _ _ _ P Hx H) as (A & B & _ & _ & C).
    split; [exact B|]. split; [rewrite B; exact A|].
    split; [intros ->; destruct C as [C _]; exact C|intros ->; exact C].
Qed.

(** Without sensitivities the computation is completed, whatever the formulation. *)
Theorem C119_completes {Par} m o direct closed s inputs cs q0 u0 du0 es tf (declared : list Par) analyse previous r :
  problem m o direct closed s inputs cs q0 u0 du0 es -> length (sv_x r) = length es -> sv_success r = true ->
  exists l, after_solve m direct closed q0 u0 du0 (length s) tf false declared analyse cs previous r = Ok l.
Proof.
  intros P Hx Hs. destruct (export_ok _ _ _ _ _ _ _ _ _ _ _ inputs cs (sv_x r) P (same_shape_refl _) Hx) as (i1 & c1 & E1 & _).
  unfold after_solve. rewrite Hs. cbn [negb andb bind]. rewrite E1. cbn [bind]. eauto.
Qed.

(** With sensitivities, the formulation with controls as unknowns returns one derivative of
    the lap for every declared parameter, and on a closed track it is the one of the
    analysis. *)
Theorem C119_derivatives_partial {Par} m o closed s inputs cs q0 u0 du0 es tf (declared : list Par) analyse previous r :
  problem m o true closed s inputs cs q0 u0 du0 es -> length (sv_x r) = length es -> sv_success r = true ->
  an_optimal (analyse declared) = true -> length (an_rows (analyse declared)) = length declared ->
  (forall row, In row (an_rows (analyse declared)) -> length es <= length row) ->
  n_controls m <> 0 ->
  exists l, after_solve m true closed q0 u0 du0 (length s) tf true declared analyse cs previous r = Ok l /\
    length (l_derivatives l) = length declared /\
    (closed = true -> forall i row d, nth_error (an_rows (analyse declared)) i = Some row ->
       nth_error (l_derivatives l) i = Some d ->
       same_kinds cs (snd d) /\ described_by m o true closed s d es (firstn (length es) row)).
Proof.
  intros P Hx Hs Ho Hr Hrow Hc0. pose proof (packed_length _ _ _ _ _ _ _ _ _ _ _ P) as Les.
  destruct (export_ok _ _ _ _ _ _ _ _ _ _ _ inputs cs (sv_x r) P (same_shape_refl _) Hx) as (i1 & c1 & E1 & S1 & _).
  assert (Each : forall i row, nth_error (an_rows (analyse declared)) i = Some row -> exists d0,
    export_solution m true closed q0 u0 du0 (length s) c1 (resize (n_variables true closed m (length s) cs) row) = Ok d0 /\
    same_shape (inputs, cs) d0 /\ described_by m o true closed s d0 es (firstn (length es) row)).
  { intros i row E. apply nth_error_In in E.
    destruct (export_ok _ _ _ _ _ _ _ _ _ _ _ i1 c1 (resize (n_variables true closed m (length s) cs) row) P S1) as (i2 & c2 & E2 & S2 & D2 & _).
    { rewrite resize_length. congruence. }
    exists (i2, c2). split; [exact E2|]. split; [exact S2|]. rewrite <- Les, resize_long in D2 by auto. exact D2. }
  assert (Clean : forall d0, same_shape (inputs, cs) d0 -> exists d, clean_sensitivity closed (fst d0) (snd d0) = Ok d).
  { intros d0 S. unfold clean_sensitivity. destruct closed; [eauto|].
    destruct (facts_shape _ _ _ _ _ (fst d0) (snd d0) (guess_facts _ _ _ _ _ (p_guess _ _ _ _ _ _ _ _ _ _ _ P))) as [N I _ C _ _ _];
      [destruct d0; exact S|].
    destruct (fst d0); [cbn in I; lia|]. destruct (snd d0); [cbn in C; lia|]. eauto. }
  assert (Ds : exists ds, all_ok (map (fun i => bind (rd (map (resize (n_variables true closed m (length s) cs)) (an_rows (analyse declared))) i)
     (fun row => bind (export_solution m true closed q0 u0 du0 (length s) c1 row) (fun d => clean_sensitivity closed (fst d) (snd d))))
     (seq 0 (length declared))) = Ok ds).
  { rewrite <- Hr. revert Each. generalize (an_rows (analyse declared)) as rows. intros rows Each.
    enough (G : forall k a, a + k <= length rows -> exists ds, all_ok (map (fun i => bind (rd (map (resize (n_variables true closed m (length s) cs)) rows) i)
      (fun row => bind (export_solution m true closed q0 u0 du0 (length s) c1 row) (fun d => clean_sensitivity closed (fst d) (snd d))))
      (seq a k)) = Ok ds) by (apply G; lia).
    induction k as [|k IH]; intros a Hk; [eexists; reflexivity|]. cbn [seq map all_ok].
    destruct (nth_error rows a) as [row|] eqn:Ea; [|apply nth_error_None in Ea; lia].
    rewrite (nth_rd _ _ (resize (n_variables true closed m (length s) cs) row)) by (now rewrite nth_error_map, Ea). cbn [bind].
    destruct (Each a row Ea) as (d0 & -> & Sd & _). cbn [bind]. destruct (Clean d0 Sd) as (d & ->). cbn [bind].
    destruct (IH (S a) ltac:(lia)) as (ds & ->). cbn [bind]. eauto. }
  destruct Ds as (ds & Hds).
  assert (R : after_solve m true closed q0 u0 du0 (length s) tf true declared analyse cs previous r
    = Ok (LapResult (sv_success r) (i1, c1) ds)).
  { unfold after_solve. rewrite Hs. cbn [negb andb bind handed_over]. rewrite Ho. cbn [bind]. rewrite E1. cbn [bind snd].
    rewrite Hds. reflexivity. }
  eexists. split; [exact R|]. cbn [l_derivatives]. apply all_ok_seq_inv in Hds as [L I]. split; [exact L|].
  intros -> i row d Ea Ed. specialize (I i d Ed).
  rewrite (nth_rd _ _ (resize (n_variables true true m (length s) cs) row)) in I by (now rewrite nth_error_map, Ea). cbn [bind] in I.
  destruct (Each i row Ea) as (d0 & E0 & Sd & D0). rewrite E0 in I. cbn [bind clean_sensitivity] in I. injection I as <-.
  destruct d0 as [i0 c0]. cbn [fst snd] in *. split; [eapply shape_kinds; eauto|exact D0].
Qed.

(** The formulation with control derivatives never hands the parameters to the analysis:
    with at least one declared parameter it reads past the derivatives it got. *)
Theorem C119_derivatives_refuted {Par} m o closed s inputs cs q0 u0 du0 es tf (declared : list Par) analyse previous r :
  problem m o false closed s inputs cs q0 u0 du0 es -> length (sv_x r) = length es -> sv_success r = true ->
  (forall ps, an_optimal (analyse ps) = true) -> (forall ps, length (an_rows (analyse ps)) = length ps) ->
  declared <> [] ->
  after_solve m false closed q0 u0 du0 (length s) tf true declared analyse cs previous r = UB.
Proof.
  intros P Hx Hs Ho Hr Hd. destruct (export_ok _ _ _ _ _ _ _ _ _ _ _ inputs cs (sv_x r) P (same_shape_refl _) Hx) as (i1 & c1 & E1 & _).
  unfold after_solve. rewrite Hs. cbn [negb andb bind handed_over]. rewrite Ho. cbn [bind]. rewrite E1. cbn [bind snd].
  destruct declared as [|p ps]; [congruence|]. cbn [length seq map all_ok].
  rewrite rd_ub; [reflexivity|]. rewrite map_length, Hr. cbn. lia.
Qed.

(** Without declared parameters that formulation is completed and returns no derivative. *)
Theorem C119_none_declared_partial {Par} m o closed s inputs cs q0 u0 du0 es tf (analyse : list Par -> analysis) previous r :
  problem m o false closed s inputs cs q0 u0 du0 es -> length (sv_x r) = length es -> sv_success r = true ->
  an_optimal (analyse []) = true ->
  exists l, after_solve m false closed q0 u0 du0 (length s) tf true [] analyse cs previous r = Ok l /\ l_derivatives l = [].
Proof.
  intros P Hx Hs Ho. destruct (export_ok _ _ _ _ _ _ _ _ _ _ _ inputs cs (sv_x r) P (same_shape_refl _) Hx) as (i1 & c1 & E1 & _).
  unfold after_solve. rewrite Hs. cbn [negb andb bind handed_over]. rewrite Ho. cbn [bind]. rewrite E1. cbn [bind snd length seq map all_ok].
  eexists. split; reflexivity.
Qed.

(** ** C35, for the derivatives that are returned *)
(** In open simulations the first point is fixed, so its derivatives vanish. The returned
    derivatives of the first control vanish at every point instead, and those of any other
    control with a value per point start with the value of the control at the start. *)
Theorem C35_returned_refuted {Par} m o s inputs cs q0 u0 du0 es tf (declared : list Par) analyse previous r l i d :
  problem m o true false s inputs cs q0 u0 du0 es -> length (sv_x r) = length es ->
  after_solve m true false q0 u0 du0 (length s) tf true declared analyse cs previous r = Ok l ->
  nth_error (l_derivatives l) i = Some d ->
  all_zero (nth 0 (fst d) []) /\
  (forall c, nth_error (snd d) 0 = Some c -> all_zero (c_values c)) /\
  (forall j c c', 0 < j -> nth_error cs j = Some c -> c_kind c = FULL_MESH -> nth_error (snd d) j = Some c' ->
     nth_error (c_values c') 0 = nth_error u0 j).
Proof.
  intros P Hx H Ed. destruct (after_inv _ _ _ _ _ _ _ _ _ _ _ _ _ _ _ _ _ _ P Hx H) as (_ & _ & _ & S1 & _ & _ & I).
  destruct (I i d Ed) as (row & d0 & Ea & E0 & Cl).
  destruct (l_solution l) as [i1 c1] eqn:El. cbn [snd] in E0.
  destruct (export_ok _ _ _ _ _ _ _ _ _ _ _ i1 c1 (resize (n_variables true false m (length s) cs) row) P S1) as (i2 & c2 & E2 & S2 & _ & U2).
  { rewrite resize_length. symmetry. eapply packed_length; eauto. }
  rewrite E0 in E2. injection E2 as ->. cbn [fst snd clean_sensitivity] in Cl.
  destruct i2 as [|r0 rows]; [discriminate|]. destruct c2 as [|cc c2]; [discriminate|]. injection Cl as <-. cbn [fst snd].
  split; [|split].
  - intros v Hin. cbn [nth] in Hin. apply in_map_iff in Hin as (? & <- & _). reflexivity.
  - intros c E. injection E as <-. intros v Hin. cbn in Hin. apply in_map_iff in Hin as (? & <- & _). reflexivity.
  - intros j c c' Hj Ej K Ec. destruct j as [|j]; [lia|]. specialize (U2 eq_refl (S j) c Ej K).
    cbn [get snd nth_error] in U2. cbn [nth_error] in Ec. rewrite Ec in U2. exact U2.
Qed.

(** ** Concrete cases *)
Definition ex_es : list entry := match pack ex_car ex_opts ex_s ex_in ex_cs true false with Ok e => e | _ => [] end.
Definition ex_es' : list entry := match pack ex_car ex_opts ex_s ex_in ex_cs' false false with Ok e => e | _ => [] end.
Example ex_problem : problem ex_car ex_opts true false ex_s ex_in ex_cs [50; 3; 1]%Q [11; 7; 21; 31]%Q [] ex_es.
Proof. constructor; [exact ex_sizes|exact ex_guess|intros _; exact ex_start|vm_compute; reflexivity]. Qed.
Example ex_problem' : problem ex_car ex_opts false false ex_s ex_in ex_cs' [50; 3; 1]%Q [11; 7; 21; 4]%Q [1; 0; 0; 7]%Q ex_es'.
Proof. constructor; [exact ex_sizes|exact ex_guess'|intros _; exact ex_start'|vm_compute; reflexivity]. Qed.
(** one derivative per declared parameter, each with two entries beyond the solution *)
Definition ex_analyse (k : nat) (ps : list nat) : analysis :=
  Analysis true (map (fun p => map (fun i => inject_Z (Z.of_nat (10 * p + i))) (seq 1 (k + 2))) ps).
Example C119_concrete : exists l,
  after_solve ex_car true false [50; 3; 1]%Q [11; 7; 21; 31]%Q [] (length ex_s) true true [1; 2] (ex_analyse (length ex_es)) ex_cs []
    (Solved true [1; 2; 3; 4; 5; 6; 7; 8; 9]%Q) = Ok l /\
  fst (l_solution l) = [[50; 3; 1]; [1; 0; 2]; [4; 0; 5]]%Q /\ length (l_derivatives l) = 2 /\
  map (fun d => fst d) (l_derivatives l) = [[[0; 0; 0]; [11; 0; 12]; [14; 0; 15]]; [[0; 0; 0]; [21; 0; 22]; [24; 0; 25]]]%Q /\
  map (fun d => map c_values (snd d)) (l_derivatives l) =
    [[[0; 0; 0]; []; [17; 18]; [19]]; [[0; 0; 0]; []; [27; 28]; [29]]]%Q.
Proof. eexists. split; [vm_compute; reflexivity|]. split; [reflexivity|]. split; [reflexivity|]. split; reflexivity. Qed.
Example C119_concrete_derivative :
  after_solve ex_car false false [50; 3; 1]%Q [11; 7; 21; 4]%Q [1; 0; 0; 7]%Q (length ex_s) true true [1; 2] (ex_analyse (length ex_es')) ex_cs' []
    (Solved true (map fst ex_es')) = UB.
Proof. vm_compute. reflexivity. Qed.
(** with a fourth control that has a value per point: its derivatives start with 4, the
    value at the start *)
Definition ex_cs2 : list control_variable :=
  [MkControl FULL_MESH [] [11; 12; 13]%Q [] 1; MkControl DONT_OPTIMIZE [] [] [] 0;
   MkControl HYPERMESH [0; 15]%Q [21; 22]%Q [] 0; MkControl FULL_MESH [] [4; 5; 6]%Q [] 0].
Definition ex_es2 : list entry := match pack ex_car ex_opts ex_s ex_in ex_cs2 true false with Ok e => e | _ => [] end.
Example ex_problem2 : problem ex_car ex_opts true false ex_s ex_in ex_cs2 [50; 3; 1]%Q [11; 7; 21; 4]%Q [] ex_es2.
Proof.
  constructor; [exact ex_sizes| |intros _; split; [reflexivity|vm_compute; reflexivity]|vm_compute; reflexivity].
  split; [exists ex_cs2; vm_compute; reflexivity|]. split; [vm_compute; reflexivity|]. cbn. split; [lia|].
  split; [reflexivity|]. intros r [<-|[<-|[<-|[]]]]; reflexivity.
Qed.
Example C35_returned_concrete : exists l d,
  after_solve ex_car true false [50; 3; 1]%Q [11; 7; 21; 4]%Q [] (length ex_s) true true [1] (ex_analyse (length ex_es2)) ex_cs2 []
    (Solved true (map fst ex_es2)) = Ok l /\ nth_error (l_derivatives l) 0 = Some d /\
  map c_values (snd d) = [[0; 0; 0]; []; [19; 20]; [4; 14; 18]]%Q.
Proof. eexists _, _. split; [vm_compute; reflexivity|]. split; reflexivity. Qed.

Print Assumptions C119_solution.
Print Assumptions C119_failure_reported.
Print Assumptions C119_completes.
Print Assumptions C119_derivatives_partial.
Print Assumptions C119_derivatives_refuted.
Print Assumptions C119_none_declared_partial.
Print Assumptions C35_returned_refuted.
