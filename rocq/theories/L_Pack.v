(** Lemmas on the flat vector of the NLP: loops that fill a vector, addresses (slots)
    of the optimised quantities, packing and unpacking. *)
From Coq Require Import QArith Bool Arith Lia List.
From Verif Require Import M_Controls S_Controls L_Controls M_Laptime.
Import ListNotations.
Local Open Scope nat_scope.

Lemma bind_assoc {A B C} (r : res A) (f : A -> res B) (g : B -> res C) :
  bind (bind r f) g = bind r (fun a => bind (f a) g).
Proof. destruct r; reflexivity. Qed.

Lemma bind_ext {A B} (r : res A) (f g : A -> res B) :
  (forall a, r = Ok a -> f a = g a) -> bind r f = bind r g.
Proof. destruct r; cbn; auto. Qed.

Lemma bind_ok {A B} (r : res A) (f : A -> res B) b : bind r f = Ok b -> exists a, r = Ok a /\ f a = Ok b.
Proof. destruct r; cbn; intros; try discriminate. eauto. Qed.

(** ** Filling a vector *)
Definition wr {A} (es : list A) (st : nat * list A) : res (nat * list A) :=
  let '(k, v) := st in
  if k + length es <=? length v then Ok (k + length es, firstn k v ++ es ++ skipn (k + length es) v) else UB.

Definition in_vec {A} (st : nat * list A) : Prop := fst st <= length (snd st).

Lemma wr_in_vec {A} (es : list A) st st' : in_vec st -> wr es st = Ok st' -> in_vec st'.
Proof.
  destruct st as [k v]. unfold in_vec, wr. cbn. intros Hk H.
  destruct (Nat.leb_spec (k + length es) (length v)); [|discriminate]. injection H as <-. cbn.
  rewrite !app_length, firstn_length, skipn_length. lia.
Qed.

Lemma wr_nil {A} (st : nat * list A) : in_vec st -> wr [] st = Ok st.
Proof.
  destruct st as [k v]. unfold in_vec, wr. cbn. intros Hk. rewrite Nat.add_0_r.
  destruct (Nat.leb_spec k (length v)); [|lia]. rewrite firstn_skipn. reflexivity.
Qed.

Lemma skipn_skipn' {A} n m (l : list A) : skipn n (skipn m l) = skipn (m + n) l.
Proof. revert l. induction m as [|m IH]; intros l; [reflexivity|]. destruct l; [rewrite !skipn_nil; reflexivity|]. apply IH. Qed.

Lemma wr_app {A} (a b : list A) st : in_vec st -> bind (wr a st) (wr b) = wr (a ++ b) st.
Proof.
  destruct st as [k v]. unfold in_vec, wr. cbn. intros Hk. rewrite app_length.
  destruct (Nat.leb_spec (k + length a) (length v)) as [H|H].
  - cbn. rewrite !app_length, firstn_length, skipn_length.
    replace (Nat.min k (length v) + (length a + (length v - (k + length a)))) with (length v) by lia.
    rewrite <- Nat.add_assoc.
    destruct (Nat.leb_spec (k + (length a + length b)) (length v)) as [H2|H2]; [|reflexivity].
    f_equal. f_equal.
    assert (Hl : length (firstn k v ++ a) = k + length a) by (rewrite app_length, firstn_length; lia).
    rewrite !(app_assoc (firstn k v) a).
    rewrite firstn_app, Hl, Nat.sub_diag, firstn_O, app_nil_r, <- Hl, firstn_all, <- !app_assoc.
    do 3 f_equal. rewrite app_assoc, skipn_app, Hl.
    rewrite skipn_all2 by lia. cbn. rewrite skipn_skipn'. f_equal. lia.
  - destruct (Nat.leb_spec (k + (length a + length b)) (length v)); [lia|reflexivity].
Qed.

Lemma put_wr {A} (a : A) st : put a st = wr [a] st.
Proof.
  destruct st as [k v]. unfold put, wr. cbn [fst snd length app]. rewrite Nat.add_1_r.
  destruct (Nat.ltb_spec k (length v)), (Nat.leb_spec (S k) (length v)); try lia; reflexivity.
Qed.

Lemma wr_bind_in_vec {A B} (es : list A) st (f g : nat * list A -> res B) : in_vec st ->
  (forall st', in_vec st' -> f st' = g st') -> bind (wr es st) f = bind (wr es st) g.
Proof. intros Hv H. apply bind_ext. intros st' E. apply H. eapply wr_in_vec; eauto. Qed.

Lemma loop_wr {A} n : forall a (body : nat -> nat * list A -> res (nat * list A)) (f : nat -> list A) st,
  in_vec st ->
  (forall i st, a <= i < a + n -> in_vec st -> body i st = wr (f i) st) ->
  loop n a body st = wr (flat_map f (seq a n)) st.
Proof.
  induction n as [|n IH]; intros a body f st Hv H; cbn [loop seq flat_map].
  - symmetry. apply wr_nil. exact Hv.
  - rewrite (H a st) by (lia || exact Hv). rewrite <- wr_app by exact Hv.
    apply wr_bind_in_vec; [exact Hv|]. intros st' Hv'. apply IH; [exact Hv'|].
    intros i st'' Hi Hv''. apply H; [lia|exact Hv''].
Qed.

Lemma for_range_wr {A} a b (body : nat -> nat * list A -> res (nat * list A)) (f : nat -> list A) st :
  in_vec st -> (forall i st, a <= i < b -> in_vec st -> body i st = wr (f i) st) ->
  for_range a b body st = wr (flat_map f (seq a (b - a))) st.
Proof. intros Hv H. apply loop_wr; [exact Hv|]. intros i st' Hi Hv'. apply H; [lia|exact Hv']. Qed.

Lemma for_each_wr {A B} (l : list B) (body : B -> nat * list A -> res (nat * list A)) (f : B -> list A) st :
  in_vec st -> (forall x st, In x l -> in_vec st -> body x st = wr (f x) st) ->
  for_each l body st = wr (flat_map f l) st.
Proof.
  revert st. induction l as [|x l IH]; intros st Hv H; cbn [for_each flat_map].
  - symmetry. apply wr_nil. exact Hv.
  - rewrite H by (auto; left; reflexivity). rewrite <- wr_app by exact Hv.
    apply wr_bind_in_vec; [exact Hv|]. intros st' Hv'. apply IH; [exact Hv'|].
    intros y st'' Hy. apply H. right; exact Hy.
Qed.

Lemma wr_full {A} (es x0 : list A) : length es = length x0 -> wr es (0, x0) = Ok (length es, es).
Proof.
  intros H. unfold wr. cbn. rewrite H, Nat.leb_refl, skipn_all, app_nil_r. reflexivity.
Qed.

Lemma wr_over {A} (es x0 : list A) : length x0 < length es -> wr es (0, x0) = UB.
Proof. intros H. unfold wr. cbn. destruct (Nat.leb_spec (length es) (length x0)); [lia|reflexivity]. Qed.

(** ** Addresses of the optimised quantities *)
Inductive slot := SIn (i j : nat) | SVal (j i : nat) | SRate (j i : nat).

Definition config := (list (list Q) * list control_variable)%type.

Definition get (cf : config) (sl : slot) : option Q :=
  match sl with
  | SIn i j => match nth_error (fst cf) i with Some row => nth_error row j | None => None end
  | SVal j i => match nth_error (snd cf) j with Some c => nth_error (c_values c) i | None => None end
  | SRate j i => match nth_error (snd cf) j with Some c => nth_error (c_rates c) i | None => None end
  end.

Definition getd (cf : config) (sl : slot) : Q := match get cf sl with Some v => v | None => 0%Q end.

Definition set_slot (sl : slot) (v : Q) (cf : config) : res config :=
  match sl with
  | SIn i j => bind (rd (fst cf) i) (fun row => bind (set_at row j v) (fun row' =>
               bind (set_at (fst cf) i row') (fun ins => Ok (ins, snd cf))))
  | SVal j i => bind (rd (snd cf) j) (fun c => bind (set_at (c_values c) i v) (fun vs =>
                bind (set_at (snd cf) j (set_values c vs)) (fun cs => Ok (fst cf, cs))))
  | SRate j i => bind (rd (snd cf) j) (fun c => bind (set_at (c_rates c) i v) (fun vs =>
                bind (set_at (snd cf) j (set_rates c vs)) (fun cs => Ok (fst cf, cs))))
  end.

Definition is_full (cs : list control_variable) (j : nat) : bool :=
  match nth_error cs j with Some c => kind_eqb (c_kind c) FULL_MESH | None => false end.

Definition row_slots (m : car) (i : nat) : list slot :=
  map (SIn i) (seq 0 (in_time m)) ++ map (SIn i) (seq (in_time m + 1) (n_inputs m - (in_time m + 1))).
Definition full_slots (m : car) (cs : list control_variable) (mk : nat -> slot) : list slot :=
  flat_map (fun j => if is_full cs j then [mk j] else []) (seq 0 (n_controls m)).
Definition point_slots (m : car) (direct : bool) (cs : list control_variable) (i : nat) : list slot :=
  row_slots m i ++ full_slots m cs (fun j => SVal j i) ++
  (if direct then [] else full_slots m cs (fun j => SRate j i)).
Definition rest_slots (cs : list control_variable) (j : nat) : list slot :=
  match nth_error cs j with
  | Some c => match c_kind c with
              | CONSTANT | HYPERMESH => map (SVal j) (seq 0 (length (c_values c)))
              | _ => []
              end
  | None => []
  end.
Definition slots (m : car) (direct closed : bool) (n : nat) (cs : list control_variable) : list slot :=
  flat_map (point_slots m direct cs) (seq (offset closed) (n - offset closed)) ++
  flat_map (rest_slots cs) (seq 0 (n_controls m)).

(** ** set_at *)
Lemma set_at_ok {A} (l : list A) i a : i < length l ->
  exists l', set_at l i a = Ok l' /\ length l' = length l /\
  (forall k, nth_error l' k = if k =? i then Some a else nth_error l k).
Proof.
  intros H. exists (firstn i l ++ a :: skipn (S i) l). unfold set_at.
  destruct (Nat.ltb_spec i (length l)); [|lia]. split; [reflexivity|]. split.
  - rewrite app_length, firstn_length. cbn [length]. rewrite skipn_length. lia.
  - intros k. destruct (Nat.eqb_spec k i) as [->|Hk].
    + rewrite nth_error_app2 by (rewrite firstn_length; lia). rewrite firstn_length.
      replace (i - Nat.min i (length l)) with 0 by lia. reflexivity.
    + assert (E : l = firstn i l ++ skipn i l) by (symmetry; apply firstn_skipn).
      destruct (Nat.lt_ge_cases k i).
      * rewrite nth_error_app1 by (rewrite firstn_length; lia). rewrite E at 2.
        rewrite nth_error_app1 by (rewrite firstn_length; lia). reflexivity.
      * rewrite nth_error_app2 by (rewrite firstn_length; lia). rewrite firstn_length.
        replace (Nat.min i (length l)) with i by lia.
        replace (k - i) with (S (k - S i)) by lia. cbn [nth_error]. rewrite E at 2.
        rewrite nth_error_app2 by (rewrite firstn_length; lia). rewrite firstn_length.
        replace (Nat.min i (length l)) with i by lia.
        destruct (skipn i l) as [|y t] eqn:Es.
        { exfalso. assert (length (skipn i l) = 0) by (rewrite Es; reflexivity). rewrite skipn_length in *. lia. }
        replace (k - i) with (S (k - S i)) by lia. cbn [nth_error].
        replace (skipn (S i) l) with t; [reflexivity|].
        replace (S i) with (i + 1) by lia. rewrite <- skipn_skipn', Es. reflexivity.
Qed.

(** ** Same shape *)
Definition control_shape (c c' : control_variable) : Prop :=
  c_kind c = c_kind c' /\ c_hypermesh c = c_hypermesh c' /\ c_dissipation c = c_dissipation c' /\
  length (c_values c) = length (c_values c') /\ length (c_rates c) = length (c_rates c').

Definition same_shape (cf cf' : config) : Prop :=
  length (fst cf) = length (fst cf') /\ length (snd cf) = length (snd cf') /\
  (forall i r r', nth_error (fst cf) i = Some r -> nth_error (fst cf') i = Some r' -> length r = length r') /\
  (forall j c c', nth_error (snd cf) j = Some c -> nth_error (snd cf') j = Some c' -> control_shape c c').

Lemma control_shape_refl c : control_shape c c.
Proof. repeat split. Qed.
Lemma control_shape_trans a b c : control_shape a b -> control_shape b c -> control_shape a c.
Proof. unfold control_shape. intuition congruence. Qed.
Lemma control_shape_sym a b : control_shape a b -> control_shape b a.
Proof. unfold control_shape. intuition congruence. Qed.

Lemma nth_error_transport {A B} (l : list A) (l' : list B) i a :
  length l = length l' -> nth_error l i = Some a -> exists b, nth_error l' i = Some b.
Proof.
  intros H E. assert (i < length l) by (apply nth_error_Some; congruence).
  destruct (nth_error l' i) eqn:E'; [eauto|]. apply nth_error_None in E'. lia.
Qed.

Lemma same_shape_refl cf : same_shape cf cf.
Proof.
  repeat split; try congruence; intros; match goal with H : ?a = Some _, H' : ?a = Some _ |- _ => rewrite H in H'; injection H' as <- end; reflexivity.
Qed.
Lemma same_shape_sym a b : same_shape a b -> same_shape b a.
Proof.
  intros (H1 & H2 & H3 & H4). split; [congruence|]. split; [congruence|]. split.
  - intros i r r' E E'. symmetry. eapply H3; eauto.
  - intros j c c' E E'. apply control_shape_sym. eapply H4; eauto.
Qed.
Lemma same_shape_trans a b c : same_shape a b -> same_shape b c -> same_shape a c.
Proof.
  intros (H1 & H2 & H3 & H4) (K1 & K2 & K3 & K4). split; [congruence|]. split; [congruence|]. split.
  - intros i r r' E E'. destruct (nth_error_transport _ _ _ _ H1 E) as [x Ex].
    transitivity (length x); [eapply H3|eapply K3]; eauto.
  - intros j x x' E E'. destruct (nth_error_transport _ _ _ _ H2 E) as [y Ey].
    eapply control_shape_trans; [eapply H4|eapply K4]; eauto.
Qed.

Lemma get_some_shape cf cf' sl v : same_shape cf cf' -> get cf sl = Some v -> exists w, get cf' sl = Some w.
Proof.
  intros (H1 & H2 & H3 & H4) E. destruct sl as [i j|j i|j i]; cbn in *.
  - destruct (nth_error (fst cf) i) as [r|] eqn:Er; [|discriminate].
    destruct (nth_error_transport _ _ _ _ H1 Er) as [r' Er']. rewrite Er'.
    eapply nth_error_transport; [|exact E]. eapply H3; eauto.
  - destruct (nth_error (snd cf) j) as [c|] eqn:Er; [|discriminate].
    destruct (nth_error_transport _ _ _ _ H2 Er) as [c' Er']. rewrite Er'.
    eapply nth_error_transport; [|exact E]. destruct (H4 j c c' Er Er') as (_ & _ & _ & ? & ?). assumption.
  - destruct (nth_error (snd cf) j) as [c|] eqn:Er; [|discriminate].
    destruct (nth_error_transport _ _ _ _ H2 Er) as [c' Er']. rewrite Er'.
    eapply nth_error_transport; [|exact E]. destruct (H4 j c c' Er Er') as (_ & _ & _ & ? & ?). assumption.
Qed.

Lemma slot_eq_dec (a b : slot) : {a = b} + {a <> b}.
Proof. decide equality; apply Nat.eq_dec. Qed.

Lemma set_slot_ok sl v cf w : get cf sl = Some w ->
  exists cf', set_slot sl v cf = Ok cf' /\ same_shape cf cf' /\ get cf' sl = Some v /\
  forall sl', sl' <> sl -> get cf' sl' = get cf sl'.
Proof.
  destruct cf as [ins cs]. destruct sl as [i j|j i|j i]; cbn [get set_slot fst snd]; intros E.
  - destruct (nth_error ins i) as [row|] eqn:Er; [|discriminate].
    assert (Hi : i < length ins) by (apply nth_error_Some; congruence).
    assert (Hj : j < length row) by (apply nth_error_Some; congruence).
    destruct (set_at_ok row j v Hj) as (row' & Es & Hl & Hn).
    destruct (set_at_ok ins i row' Hi) as (ins' & Es' & Hl' & Hn').
    exists (ins', cs). unfold rd. rewrite Er. cbn [bind]. rewrite Es. cbn [bind]. rewrite Es'. cbn [bind].
    split; [reflexivity|]. split; [|split].
    + split; [cbn; congruence|]. split; [reflexivity|]. split; cbn.
      * intros k r r' Ek Ek'. rewrite Hn' in Ek'. destruct (Nat.eqb_spec k i) as [->|]; congruence.
      * intros k c c' Ek Ek'. rewrite Ek in Ek'. injection Ek' as <-. apply control_shape_refl.
    + cbn. rewrite Hn', Nat.eqb_refl, Hn, Nat.eqb_refl. reflexivity.
    + intros [i' j'|j' i'|j' i'] Hne; cbn; [|reflexivity|reflexivity].
      rewrite Hn'. destruct (Nat.eqb_spec i' i) as [->|]; [|reflexivity].
      rewrite Er, Hn. destruct (Nat.eqb_spec j' j) as [->|]; [congruence|reflexivity].
  - destruct (nth_error cs j) as [c|] eqn:Er; [|discriminate].
    assert (Hj : j < length cs) by (apply nth_error_Some; congruence).
    assert (Hi : i < length (c_values c)) by (apply nth_error_Some; congruence).
    destruct (set_at_ok (c_values c) i v Hi) as (vs & Es & Hl & Hn).
    destruct (set_at_ok cs j (set_values c vs) Hj) as (cs' & Es' & Hl' & Hn').
    exists (ins, cs'). unfold rd. rewrite Er. cbn [bind]. rewrite Es. cbn [bind]. rewrite Es'. cbn [bind].
    split; [reflexivity|]. split; [|split].
    + split; [reflexivity|]. split; [cbn; congruence|]. split; cbn.
      * intros k r r' Ek Ek'. rewrite Ek in Ek'. congruence.
      * intros k x x' Ek Ek'. rewrite Hn' in Ek'. destruct (Nat.eqb_spec k j) as [->|].
        -- injection Ek' as <-. rewrite Er in Ek. injection Ek as <-. repeat split. cbn. congruence.
        -- rewrite Ek in Ek'. injection Ek' as <-. apply control_shape_refl.
    + cbn. rewrite Hn', Nat.eqb_refl. cbn. rewrite Hn, Nat.eqb_refl. reflexivity.
    + intros [i' j'|j' i'|j' i'] Hne; cbn; [reflexivity| |].
      * rewrite Hn'. destruct (Nat.eqb_spec j' j) as [->|]; [|reflexivity].
        rewrite Er. cbn. rewrite Hn. destruct (Nat.eqb_spec i' i) as [->|]; [congruence|reflexivity].
      * rewrite Hn'. destruct (Nat.eqb_spec j' j) as [->|]; [|reflexivity]. rewrite Er. reflexivity.
  - destruct (nth_error cs j) as [c|] eqn:Er; [|discriminate].
    assert (Hj : j < length cs) by (apply nth_error_Some; congruence).
    assert (Hi : i < length (c_rates c)) by (apply nth_error_Some; congruence).
    destruct (set_at_ok (c_rates c) i v Hi) as (vs & Es & Hl & Hn).
    destruct (set_at_ok cs j (set_rates c vs) Hj) as (cs' & Es' & Hl' & Hn').
    exists (ins, cs'). unfold rd. rewrite Er. cbn [bind]. rewrite Es. cbn [bind]. rewrite Es'. cbn [bind].
    split; [reflexivity|]. split; [|split].
    + split; [reflexivity|]. split; [cbn; congruence|]. split; cbn.
      * intros k r r' Ek Ek'. rewrite Ek in Ek'. congruence.
      * intros k x x' Ek Ek'. rewrite Hn' in Ek'. destruct (Nat.eqb_spec k j) as [->|].
        -- injection Ek' as <-. rewrite Er in Ek. injection Ek as <-. repeat split. cbn. congruence.
        -- rewrite Ek in Ek'. injection Ek' as <-. apply control_shape_refl.
    + cbn. rewrite Hn', Nat.eqb_refl. cbn. rewrite Hn, Nat.eqb_refl. reflexivity.
    + intros [i' j'|j' i'|j' i'] Hne; cbn; [reflexivity| |].
      * rewrite Hn'. destruct (Nat.eqb_spec j' j) as [->|]; [|reflexivity]. rewrite Er. reflexivity.
      * rewrite Hn'. destruct (Nat.eqb_spec j' j) as [->|]; [|reflexivity].
        rewrite Er. cbn. rewrite Hn. destruct (Nat.eqb_spec i' i) as [->|]; [congruence|reflexivity].
Qed.

(** ** Loading a list of slots *)
Definition load1 (x : list Q) (sl : slot) (st : unpacked) : res unpacked :=
  bind (rd x (fst st)) (fun v => bind (set_slot sl v (snd st)) (fun cf => Ok (S (fst st), cf))).

Lemma loads_ok x : forall sls k cf,
  NoDup sls -> (forall sl, In sl sls -> exists w, get cf sl = Some w) -> k + length sls <= length x ->
  exists cf', for_each sls (load1 x) (k, cf) = Ok (k + length sls, cf') /\ same_shape cf cf' /\
    (forall sl, ~ In sl sls -> get cf' sl = get cf sl) /\
    (forall p sl, nth_error sls p = Some sl -> get cf' sl = nth_error x (k + p)).
Proof.
  induction sls as [|sl sls IH]; intros k cf Hnd Hv Hk.
  - exists cf. cbn. rewrite Nat.add_0_r. split; [reflexivity|]. split; [apply same_shape_refl|].
    split; [reflexivity|]. intros [|p] s E; discriminate.
  - cbn [length] in Hk. inversion Hnd as [|? ? Hni Hnd']; subst.
    destruct (Hv sl (or_introl eq_refl)) as [w Ew].
    destruct (rd_ok x k) as (v & Ev & Er); [lia|].
    destruct (set_slot_ok sl v cf w Ew) as (cf1 & E1 & Hs1 & Hg1 & Ho1).
    destruct (IH (S k) cf1 Hnd') as (cf2 & E2 & Hs2 & Hn2 & Hp2).
    { intros sl' Hin. destruct (Hv sl' (or_intror Hin)) as [w' Ew']. eapply get_some_shape; eauto. }
    { lia. }
    exists cf2. cbn [for_each]. unfold load1 at 1. cbn [fst snd]. rewrite Er. cbn [bind]. rewrite E1. cbn [bind].
    rewrite E2. split; [cbn [length]; f_equal; f_equal; lia|].
    split; [eapply same_shape_trans; eauto|]. split.
    + intros sl' Hni'. rewrite Hn2 by (intros F; apply Hni'; right; exact F).
      apply Ho1. intros ->. apply Hni'. left; reflexivity.
    + intros [|p] s E; cbn in E.
      * injection E as <-. rewrite Hn2 by exact Hni. rewrite Hg1, Nat.add_0_r. symmetry. exact Ev.
      * rewrite (Hp2 p s E). f_equal. lia.
Qed.

Lemma for_each_app {A St} (l1 l2 : list A) (body : A -> St -> res St) st :
  for_each (l1 ++ l2) body st = bind (for_each l1 body st) (for_each l2 body).
Proof.
  revert st. induction l1 as [|x l1 IH]; intros st; cbn; [reflexivity|].
  rewrite bind_assoc. apply bind_ext. intros a _. apply IH.
Qed.

Lemma for_each_inv {A St} (P : St -> Prop) (l : list A) (body : A -> St -> res St) st st' :
  (forall x st st', P st -> body x st = Ok st' -> P st') -> P st -> for_each l body st = Ok st' -> P st'.
Proof.
  intros H. revert st. induction l as [|x l IH]; intros st Hp E; cbn in E; [congruence|].
  apply bind_ok in E. destruct E as (a & Ea & E). eapply IH; [|exact E]. eapply H; eauto.
Qed.

(** A loop whose turns load slots is the loading of all of them. *)
Lemma loop_loads x (P : unpacked -> Prop) n : forall a body (f : nat -> list slot) st,
  (forall sl st st', P st -> load1 x sl st = Ok st' -> P st') ->
  (forall i st, a <= i < a + n -> P st -> body i st = for_each (f i) (load1 x) st) ->
  P st -> loop n a body st = for_each (flat_map f (seq a n)) (load1 x) st.
Proof.
  induction n as [|n IH]; intros a body f st HP Hb Hst; cbn [loop seq flat_map]; [reflexivity|].
  rewrite Hb by (lia || exact Hst). rewrite for_each_app. apply bind_ext. intros st' E.
  apply IH; [exact HP| |eapply for_each_inv; eauto].
  intros i st'' Hi. apply Hb. lia.
Qed.

Lemma for_each_flat {A St} (f : nat -> list A) (body : A -> St -> res St) (g : nat -> St -> res St) l st :
  (forall i st, g i st = for_each (f i) body st) ->
  for_each l g st = for_each (flat_map f l) body st.
Proof.
  intros H. revert st. induction l as [|x l IH]; intros st; cbn; [reflexivity|].
  rewrite H, for_each_app. apply bind_ext. intros; apply IH.
Qed.

Lemma load1_shape x cf0 sl st st' : same_shape cf0 (snd st) -> load1 x sl st = Ok st' -> same_shape cf0 (snd st').
Proof.
  intros Hs E. unfold load1 in E. apply bind_ok in E. destruct E as (v & _ & E).
  apply bind_ok in E. destruct E as (cf & E & E2). injection E2 as <-. cbn.
  assert (Hg : exists w, get (snd st) sl = Some w).
  { destruct st as [k [ins cs]]. destruct sl as [i j|j i|j i]; cbn [set_slot get fst snd] in *; unfold rd, set_at in E;
    destruct (nth_error _ _) as [r|]; try discriminate; cbn [bind] in E;
    match type of E with bind (if ?a <? length ?l then _ else _) _ = _ =>
      destruct (Nat.ltb_spec a (length l)) as [H|H]; [|discriminate]; destruct (nth_error l a) eqn:En;
      [eauto|apply nth_error_None in En; lia] end. }
  destruct Hg as [w Hg]. destruct (set_slot_ok sl v _ w Hg) as (cf' & E' & Hs' & _).
  pose proof (eq_trans (eq_sym E) E') as EE. injection EE as <-. eapply same_shape_trans; eauto.
Qed.
