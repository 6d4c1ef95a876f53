(** Mesh checks, integral quantities under a change of the starting line, names of the
    integral constraints, clean-up of the sensitivities. *)
From Coq Require Import String QArith Qabs Qfield Lqa Bool Arith Lia List Setoid.
From Verif Require Import M_Controls S_Controls L_Controls M_Laptime S_Laptime L_Pack L_Pack2 L_Pack4 S_Colloc L_Colloc L_Colloc2.
Import ListNotations.
Local Open Scope nat_scope.

(** ** Evaluations of the car *)
Lemma all_ok_spec {A} (l : list (res A)) v : all_ok l = Ok v -> length v = length l /\ forall i a, nth_error v i = Some a -> nth_error l i = Some (Ok a).
Proof.
  revert v. induction l as [|r l IH]; intros v; cbn.
  - intros [= <-]. split; [reflexivity|]. intros [|i]; discriminate.
  - destruct r as [a| |]; cbn; try discriminate. destruct (all_ok l) as [w| |]; cbn; try discriminate.
    intros [= <-]. destruct (IH w eq_refl) as [H1 H2]. split; [cbn; lia|]. intros [|i] x H; cbn in *; [injection H as <-; reflexivity|auto].
Qed.

Lemma evaluate_all_ok m ib s cs inputs evs :
  (forall row u si id, In id (st_time m :: differential_ids m ++ algebraic_ids m) ->
     id < length (eval_states m row u si) /\ id < length (eval_dstates m row u si)) ->
  (forall row u si, length (eval_extra m row u si) = n_extra m) ->
  (forall row u si, length (eval_integral m row u si) = length ib) ->
  evaluate_all m s cs inputs = Ok evs -> evaluations_ok m ib s evs.
Proof.
  intros Hs He Hi H. apply all_ok_spec in H. destruct H as [Hl Hn]. rewrite map_length, seq_length in Hl.
  split; [exact Hl|]. intros e Hin. apply In_nth_error in Hin. destruct Hin as [i Hi']. specialize (Hn i e Hi').
  rewrite nth_error_map in Hn. destruct (nth_error (seq 0 (length s)) i) as [k|]; [|discriminate]. cbn in Hn. injection Hn as Hn.
  unfold evaluate_point in Hn. apply bind_ok in Hn. destruct Hn as (row & _ & Hn). apply bind_ok in Hn. destruct Hn as (si & _ & Hn).
  apply bind_ok in Hn. destruct Hn as (u & _ & Hn). cbv zeta in Hn. apply bind_ok in Hn. destruct Hn as (dt & _ & Hn). injection Hn as <-.
  split; [|split].
  - intros id Hid. cbn. apply Hs. exact Hid.
  - apply He.
  - cbn. unfold vscale. rewrite map_length. apply Hi.
Qed.

(** ** Integral quantities *)
Lemma nodes_nth j : forall (s : list Q) evs i, length evs = length s ->
  snd (nth i (combine s (map (fun e => nth j (e_integrands e) 0%Q) evs)) (0, 0)%Q) = integrand_at evs j i.
Proof.
  unfold integrand_at, pt. induction s as [|a s IH]; intros [|e evs] i H; cbn in *; try discriminate.
  - destruct i, j; reflexivity.
  - destruct i; [reflexivity|]. apply IH. lia.
Qed.

Definition nodes (s : list Q) (evs : list evaluation) (j : nat) : list (Q * Q) := combine s (map (fun e => nth j (e_integrands e) 0%Q) evs).

Lemma fst_nodes s evs j : length evs = length s -> map fst (nodes s evs j) = s.
Proof.
  unfold nodes. revert evs. induction s as [|a s IH]; intros [|e evs] H; cbn in *; try discriminate; [reflexivity|]. f_equal. apply IH. lia.
Qed.

Lemma quadrature_nodes sigma L s evs j : length evs = length s ->
  (closed_quadrature sigma L (nodes s evs j) == quadrature sigma (integrand_at evs j) (elements true L s))%Q.
Proof.
  intros H. unfold closed_quadrature. rewrite fst_nodes by exact H. unfold quadrature. apply sum_ext. intros e _.
  unfold nodes. rewrite !nodes_nth by exact H. reflexivity.
Qed.

Lemma combine_map_l {A B C} (f : A -> C) (l : list A) (l' : list B) : combine (map f l) l' = map (fun p => (f (fst p), snd p)) (combine l l').
Proof. revert l'. induction l as [|a l IH]; intros [|b l']; cbn; [reflexivity..|]. f_equal. apply IH. Qed.

Lemma combine_snoc {A B} (l : list A) (l' : list B) a b : length l = length l' -> combine (l ++ [a]) (l' ++ [b]) = combine l l' ++ [(a, b)].
Proof. revert l'. induction l as [|x l IH]; intros [|y l'] H; cbn in *; try discriminate; [reflexivity|]. f_equal. apply IH. lia. Qed.

Lemma nodes_shift L s evs j : length evs = length s -> 2 <= length s ->
  nodes (shift_mesh L s) (rotate evs) j = next_start L (nodes s evs j).
Proof.
  intros H Hn. destruct s as [|s0 [|s1 r]]; cbn [length] in Hn; [lia|lia|].
  destruct evs as [|e0 [|e1 re]]; cbn [length] in H; [lia|lia|].
  unfold nodes, shift_mesh, rotate, next_start. cbn [map combine app]. rewrite map_app. cbn [map]. rewrite combine_snoc by (rewrite !map_length; lia).
  rewrite combine_map_l. reflexivity.
Qed.

Lemma swapped_quadrature sigma f L s :
  (quadrature sigma f (inner_elements s ++ [swapped (closing_element L s)]) ==
   quadrature sigma f (elements true L s) + (L - nth (length s - 1) s 0) * (1 - 2 * sigma) * (f 0%nat - f (length s - 1)%nat))%Q.
Proof. unfold quadrature, elements. rewrite !sum_app. cbn. ring. Qed.

(** ** Mesh *)
Lemma Qlt_bool_iff x y : Qlt_bool x y = true <-> (x < y)%Q.
Proof. unfold Qlt_bool. destruct (Qle_bool y x) eqn:H; cbn.
  - apply Qle_bool_iff in H. split; [discriminate|]. intros K. exfalso. apply (Qlt_not_le _ _ K H).
  - split; [|auto]. intros _. apply Qnot_le_lt. intros K. apply Qle_bool_iff in K. congruence. Qed.
Lemma Qlt_bool_false x y : Qlt_bool x y = false <-> (y <= x)%Q.
Proof. unfold Qlt_bool. rewrite negb_false_iff. apply Qle_bool_iff. Qed.

Lemma check_mesh_iff closed L s s' : check_mesh closed L s = Ok s' <->
  2 <= length s /\
  if closed then (Qabs (nth 0 s 0) <= 1 # 10 ^ 12 /\ nth (length s - 1) s 0 <= L - (1 # 10 ^ 10))%Q /\ s' = 0%Q :: tl s
  else (- (1 # 10 ^ 12) <= nth 0 s 0 /\ nth (length s - 1) s 0 <= L)%Q /\ s' = s.
Proof.
  unfold check_mesh, tol. destruct (Nat.leb_spec (length s) 1) as [H|H].
  - split; [discriminate|]. intros [K _]. lia.
  - cbv zeta. destruct closed.
    + destruct (Qlt_bool (1 # 10 ^ 12) (Qabs (nth 0 s 0%Q))) eqn:E1.
      { apply Qlt_bool_iff in E1. split; [discriminate|]. intros (_ & (K & _) & _). exfalso. apply (Qlt_not_le _ _ E1 K). }
      apply Qlt_bool_false in E1.
      destruct (Qlt_bool (L - (1 # 10 ^ 10)) (nth (length s - 1) s 0%Q)) eqn:E2.
      { apply Qlt_bool_iff in E2. split; [discriminate|]. intros (_ & (_ & K) & _). exfalso. apply (Qlt_not_le _ _ E2 K). }
      apply Qlt_bool_false in E2.
      split; [intros [= <-]; auto 10|]. intros (_ & _ & ->). reflexivity.
    + destruct (Qlt_bool (nth 0 s 0%Q) (- (1 # 10 ^ 12))) eqn:E1.
      { apply Qlt_bool_iff in E1. split; [discriminate|]. intros (_ & (K & _) & _). exfalso. apply (Qlt_not_le _ _ E1 K). }
      apply Qlt_bool_false in E1.
      destruct (Qlt_bool L (nth (length s - 1) s 0%Q)) eqn:E2.
      { apply Qlt_bool_iff in E2. split; [discriminate|]. intros (_ & (_ & K) & _). exfalso. apply (Qlt_not_le _ _ E2 K). }
      apply Qlt_bool_false in E2.
      split; [intros [= <-]; auto 10|]. intros (_ & _ & ->). reflexivity.
Qed.

(** ** Names of the integral constraints *)
Lemma find_index_spec x l : match find_index x l with Some i => nth_error l i = Some x | None => ~ In x l end.
Proof.
  induction l as [|y l IH]; cbn; [auto|]. destruct (String.eqb_spec y x) as [->|Hne]; [reflexivity|].
  destruct (find_index x l); cbn; [exact IH|]. intros [H|H]; auto.
Qed.

Lemma last_mention_snoc x conf y b : last_mention x (conf ++ [(y, b)]) = if String.eqb y x then Some b else last_mention x conf.
Proof.
  induction conf as [|[z bz] conf IH]; [reflexivity|]. cbn [app last_mention]. rewrite IH. destruct (String.eqb y x); [reflexivity|]. reflexivity.
Qed.

Lemma last_mention_none x conf : last_mention x conf = None <-> ~ In x (map fst conf).
Proof.
  induction conf as [|[y b] conf IH]; cbn; [tauto|]. destruct (last_mention x conf).
  - split; [discriminate|]. intros H. exfalso. assert (K : Some p = None) by (apply IH; tauto). discriminate.
  - destruct (String.eqb_spec y x) as [->|Hne].
    + split; [discriminate|]. intros H. exfalso. apply H. left. reflexivity.
    + split; [|reflexivity]. intros _ [H|H]; [congruence|]. apply IH in H; auto.
Qed.

Lemma for_each_snoc {A St} (l : list A) x (body : A -> St -> res St) st :
  for_each (l ++ [x]) body st = bind (for_each l body st) (body x).
Proof. rewrite for_each_app. apply bind_ext. intros st'. cbn. destruct (body x st'); reflexivity. Qed.

Lemma set_integrals_spec names conf : NoDup names ->
  match set_integrals names conf with
  | Ok ib => incl (map fst conf) names /\ length ib = length names /\
      forall i x, nth_error names i = Some x ->
        nth_error ib i = Some (match last_mention x conf with
                               | Some b => MkBound true (fst b) (snd b)
                               | None => MkBound false (- dbl_max) dbl_max
                               end)
  | Throw => ~ incl (map fst conf) names
  | UB => False
  end.
Proof.
  intros Hnd. unfold set_integrals. induction conf as [|[y b] conf IH] using rev_ind.
  - cbn. split; [intros x []|]. rewrite map_length. split; [reflexivity|]. intros i x H. rewrite nth_error_map, H. reflexivity.
  - rewrite for_each_snoc. destruct (for_each conf _ _) as [ib| |]; cbn [bind].
    2:{ intros H. apply IH. rewrite map_app in H. intros z Hz. apply H, in_or_app. left. exact Hz. }
    2:exact IH.
    destruct IH as (Hincl & Hl & Hb). cbn [fst snd]. pose proof (find_index_spec y names) as Hf.
    destruct (find_index y names) as [i|] eqn:Ef.
    + assert (Hi : i < length ib) by (rewrite Hl; apply nth_error_Some; congruence).
      destruct (set_at_ok ib i (MkBound true (fst b) (snd b)) Hi) as (ib' & E & L' & Hk). rewrite E.
      split; [|split; [lia|]].
      * rewrite map_app. intros z Hz. apply in_app_or in Hz. destruct Hz as [Hz|[<-|[]]]; [auto|]. apply (nth_error_In names i). exact Hf.
      * intros k x Hx. rewrite last_mention_snoc, Hk. destruct (String.eqb_spec y x) as [->|Hne].
        -- assert (k = i) as ->; [|rewrite Nat.eqb_refl; reflexivity]. rewrite NoDup_nth_error in Hnd. apply Hnd; [apply nth_error_Some; congruence|congruence].
        -- destruct (Nat.eqb_spec k i) as [->|Hki]; [congruence|]. apply Hb. exact Hx.
    + intros H. apply Hf. apply H. rewrite map_app. apply in_or_app. right. left. reflexivity.
Qed.

(** ** Sensitivities *)
Lemma clean_inputs din dcs din' dcs' : clean_sensitivity false din dcs = Ok (din', dcs') ->
  length din' = length din /\ (forall i, 0 < i -> nth i din' [] = nth i din []) /\
  (forall x, In x (nth 0 din' []) -> x = 0%Q) /\ length (nth 0 din' []) = length (nth 0 din []) /\
  length dcs' = length dcs /\ (forall j, 0 < j -> nth_error dcs' j = nth_error dcs j).
Proof.
  unfold clean_sensitivity. destruct din as [|r rows], dcs as [|c cs]; try discriminate. intros [= <- <-].
  split; [reflexivity|]. split; [intros [|i] H; [lia|reflexivity]|]. split.
  - cbn. intros x Hx. apply in_map_iff in Hx. destruct Hx as (? & <- & _). reflexivity.
  - cbn. rewrite map_length. split; [reflexivity|]. split; [reflexivity|]. intros [|j] H; [lia|reflexivity].
Qed.

Lemma warm_start_iff nv nc zl zu la : check_warm_start nv nc zl zu la = Ok tt <-> length zl = nv /\ length zu = nv /\ length la = nc.
Proof.
  unfold check_warm_start. destruct (Nat.eqb_spec (length zl) nv), (Nat.eqb_spec (length zu) nv), (Nat.eqb_spec (length la) nc); cbn;
    split; intros H; try discriminate; try tauto; try (exfalso; lia).
Qed.
