(** The roll balance equation on tracks with elevation (C87) and the bounds of the control
    rates of the Formula 1 car (C81). *)
From Coq Require Import QArith Lia Bool Arith List.
From Verif Require Import M_Controls M_Laptime S_Laptime S_Colloc M_Balance.
Import ListNotations.
Local Open Scope nat_scope.

(** ** C87: roll balance *)
(** On flat tracks, where it is an algebraic equation, it holds at the end of every element. *)
Theorem C87_flat : forall m sigma s cs direct evs id e, In id (algebraic_ids m) ->
  element_satisfied m sigma s cs direct evs e -> (dstate_at evs id (el_r e) == 0)%Q.
Proof. intros m sigma s cs direct evs id e Hid (_ & H & _). now apply H. Qed.

Lemma half_equation : forall d a b : Q, ~ (d == 0)%Q -> (0 - 0 == d * ((1 - (1 # 2)) * a + (1 # 2) * b))%Q -> (b == - a)%Q.
Proof.
  intros d a b Hd H. assert (E : (d * (a + b) == 0)%Q).
  { setoid_replace (d * (a + b))%Q with (2 * (d * ((1 - (1 # 2)) * a + (1 # 2) * b)))%Q by ring. rewrite <- H. ring. }
  apply Qmult_integral in E. destruct E as [E|E]; [contradiction|].
  setoid_replace b with ((a + b) - a)%Q by ring. rewrite E. ring.
Qed.

Lemma alternates : forall (L : Q) s evs id,
  (forall e, In e (inner_elements s) ->
     ~ (el_ds e == 0)%Q /\
     (0 - 0 == el_ds e * ((1 - (1 # 2)) * dstate_at evs id (el_l e) + (1 # 2) * dstate_at evs id (el_r e)))%Q) ->
  forall i, i < length s -> (dstate_at evs id i == sign (dstate_at evs id 0) i)%Q.
Proof.
  intros L s evs id H. induction i as [|i IH]; intros Hi; [reflexivity|].
  assert (I : In (MkEl i (S i) (nth (S i) s 0 - nth i s 0)%Q) (inner_elements s)).
  { unfold inner_elements. apply in_map_iff. exists (S i). split; [cbn; now rewrite Nat.sub_0_r | apply in_seq; lia]. }
  destruct (H _ I) as [Hd He]. cbn [el_l el_r el_ds] in *. apply half_equation in He; [|exact Hd].
  rewrite He, IH by lia. unfold sign. rewrite Nat.even_succ, <- Nat.negb_even. destruct (Nat.even i); cbn; ring.
Qed.

(** With the trapezoidal rule on a closed track with an odd number of points the balance holds
    at every point. *)
Theorem C87_odd_partial : forall m s cs direct evs id, In id (differential_ids m) ->
  Nat.even (length s) = false ->
  (forall i, i < length s -> (state_at evs id i == 0)%Q) ->
  (forall e, In e (elements true (track_length m) s) -> ~ (el_ds e == 0)%Q /\ element_satisfied m (1 # 2) s cs direct evs e) ->
  forall i, i < length s -> (dstate_at evs id i == 0)%Q.
Proof.
  intros m s cs direct evs id Hid Hodd Hz H.
  assert (Hn : 0 < length s) by (destruct s; [discriminate Hodd | cbn; lia]).
  assert (H' : forall e, In e (elements true (track_length m) s) -> ~ (el_ds e == 0)%Q /\
     (0 - 0 == el_ds e * ((1 - (1 # 2)) * dstate_at evs id (el_l e) + (1 # 2) * dstate_at evs id (el_r e)))%Q).
  { intros e He. destruct (H e He) as [Hd (E & _)]. split; [exact Hd|]. rewrite <- (E id Hid).
    assert (B : el_l e < length s /\ el_r e < length s).
    { unfold elements in He. apply in_app_iff in He. destruct He as [He|[<-|[]]].
      - unfold inner_elements in He. apply in_map_iff in He. destruct He as (k & <- & Hk). apply in_seq in Hk. cbn. lia.
      - cbn. lia. }
    rewrite !Hz by apply B. reflexivity. }
  assert (A : forall i, i < length s -> (dstate_at evs id i == sign (dstate_at evs id 0) i)%Q).
  { apply (alternates (track_length m)). intros e He. apply H'. unfold elements. apply in_app_iff. now left. }
  assert (C : In (closing_element (track_length m) s) (elements true (track_length m) s)).
  { unfold elements. apply in_app_iff. right. now left. }
  destruct (H' _ C) as [Hd He]. cbn [closing_element el_l el_r el_ds] in *. apply half_equation in He; [|exact Hd].
  rewrite (A (length s - 1)) in He by lia.
  assert (E : Nat.even (length s - 1) = true).
  { destruct (length s) as [|n]; [lia|]. rewrite Nat.even_succ, <- Nat.negb_even in Hodd. cbn. rewrite Nat.sub_0_r.
    destruct (Nat.even n); [reflexivity | discriminate]. }
  unfold sign in He. rewrite E in He.
  assert (Z : (dstate_at evs id 0 == 0)%Q).
  { revert He. generalize (dstate_at evs id 0) as x. intros x He.
    assert (T : (2 * x == 0)%Q). { setoid_replace (2 * x)%Q with (x - - x)%Q by ring. rewrite <- He. ring. }
    apply Qmult_integral in T. destruct T as [T|T]; [discriminate | exact T]. }
  intros i Hi. rewrite (A i Hi). unfold sign. destruct (Nat.even i); rewrite Z; ring.
Qed.

(** With an even number of points any alternating imbalance satisfies the equations of every
    element: the equation is met on the average of the ends only. *)
Theorem C87_refuted : forall id c L s, Nat.even (length s) = true ->
  exists evs, length evs = length s /\
    (forall i, i < length s -> (state_at evs id i == 0)%Q /\ (dstate_at evs id i == sign c i)%Q) /\
    forall e, In e (elements true L s) ->
      (state_at evs id (el_r e) - state_at evs id (el_l e) ==
       el_ds e * ((1 - (1 # 2)) * dstate_at evs id (el_l e) + (1 # 2) * dstate_at evs id (el_r e)))%Q.
Proof.
  intros id c L s Heven.
  set (ev := fun i => MkEval (repeat 0%Q (S id)) (repeat (sign c i) (S id)) [] []).
  assert (P : forall i, i < length s -> pt (map ev (seq 0 (length s))) i = ev i).
  { intros i Hi. unfold pt. rewrite (nth_indep _ no_evaluation (ev 0)) by (rewrite map_length, seq_length; lia).
    rewrite map_nth, seq_nth by lia. reflexivity. }
  assert (N : forall (x : Q) d, nth id (repeat x (S id)) d = x).
  { intros x d. clear. induction id as [|k IH]; [reflexivity | exact IH]. }
  assert (V : forall i, i < length s -> (state_at (map ev (seq 0 (length s))) id i == 0)%Q /\
                                        (dstate_at (map ev (seq 0 (length s))) id i == sign c i)%Q).
  { intros i Hi. unfold state_at, dstate_at. rewrite P by exact Hi. unfold ev. cbn [e_states e_dstates]. rewrite !N. split; reflexivity. }
  exists (map ev (seq 0 (length s))). split; [now rewrite map_length, seq_length|]. split; [exact V|].
  intros e He.
  assert (B : el_l e < length s /\ el_r e < length s /\ (sign c (el_r e) == - sign c (el_l e))%Q \/ length s = 0).
  { unfold elements in He. apply in_app_iff in He. destruct He as [He|[<-|[]]].
    - unfold inner_elements in He. apply in_map_iff in He. destruct He as (k & <- & Hk). apply in_seq in Hk. cbn [el_l el_r]. left.
      split; [lia|]. split; [lia|]. destruct k as [|k]; [lia|]. cbn [Nat.sub]. rewrite Nat.sub_0_r. unfold sign.
      rewrite Nat.even_succ, <- Nat.negb_even. destruct (Nat.even k); cbn; ring.
    - destruct (length s) as [|n] eqn:El; [now right|]. left. cbn [closing_element el_l el_r]. rewrite El. split; [lia|]. split; [lia|].
      replace (S n - 1) with n by lia. rewrite Nat.even_succ, <- Nat.negb_even in Heven. unfold sign.
      destruct (Nat.even n); [discriminate|]. cbn. ring. }
  destruct B as [(Bl & Br & Bs)|Z].
  - destruct (V _ Bl) as [S1 D1], (V _ Br) as [S2 D2]. rewrite S1, S2, D1, D2, Bs. ring.
  - assert (E0 : s = []) by (destruct s; [reflexivity | discriminate]). subst s. cbn in He. destruct He as [<-|[]].
    unfold state_at, dstate_at, closing_element, pt. cbn. destruct id; cbn; ring.
Qed.
(** For instance six points a metre apart, imbalance of one. *)
Example C87_case : exists evs, length evs = 6 /\ (dstate_at evs 10 3 == - (1))%Q /\
  forall e, In e (elements true 6 [0; 1; 2; 3; 4; 5]%Q) ->
      (state_at evs 10 (el_r e) - state_at evs 10 (el_l e) ==
       el_ds e * ((1 - (1 # 2)) * dstate_at evs 10 (el_l e) + (1 # 2) * dstate_at evs 10 (el_r e)))%Q.
Proof.
  destruct (C87_refuted 10 1 6 [0; 1; 2; 3; 4; 5]%Q eq_refl) as (evs & L & V & E). exists evs.
  split; [exact L|]. split; [|exact E]. destruct (V 3) as [_ D]; [cbn; lia | rewrite D; reflexivity].
Qed.

(** ** C81: bounds of the control rates *)
Definition no_throw {S} (r : res S) : Prop := r <> Throw.
Lemma bind_no_throw : forall A B (r : res A) (f : A -> res B), no_throw r -> (forall a, no_throw (f a)) -> no_throw (bind r f).
Proof. intros A B [a| |] f H1 H2; cbn; [apply H2 | now destruct H1 | discriminate]. Qed.
Lemma rd_no_throw : forall A (l : list A) i, no_throw (rd l i).
Proof. intros A l i. unfold rd. destruct (nth_error l i); discriminate. Qed.
Lemma put_no_throw : forall A (a : A) st, no_throw (put a st).
Proof. intros A a st. unfold put. destruct (fst st <? length (snd st)); discriminate. Qed.
Lemma loop_no_throw : forall T n a (body : nat -> T -> res T) st, (forall i st, no_throw (body i st)) -> no_throw (loop n a body st).
Proof.
  intros T n. induction n as [|n IH]; intros a body st H; cbn [loop]; [discriminate|].
  apply bind_no_throw; [apply H | intros st'; now apply IH].
Qed.
Lemma bind_not_ok : forall A B (r : res A) (f : A -> res B), (forall a, r <> Ok a) -> forall b, bind r f <> Ok b.
Proof. intros A B [a| |] f H b; cbn; [now destruct (H a) | discriminate | discriminate]. Qed.
Lemma loop_not_ok : forall T n a (body : nat -> T -> res T) j, a <= j < a + n -> (forall st x, body j st <> Ok x) ->
  forall st x, loop n a body st <> Ok x.
Proof.
  intros T n. induction n as [|n IH]; intros a body j Hj H st x; [lia|]. cbn [loop].
  destruct (Nat.eq_dec j a) as [->|Hn].
  - apply bind_not_ok. apply H.
  - destruct (body a st) as [st'| |]; cbn; [|discriminate|discriminate]. apply (IH (S a) body j); [lia | exact H].
Qed.

Ltac nt := repeat first [ apply bind_no_throw; [|intros] | apply rd_no_throw | apply put_no_throw | discriminate
                        | apply loop_no_throw; intros ].

Lemma put_point_direct_no_throw : forall m o s inputs cs i st, no_throw (put_point_direct m o s inputs cs i st).
Proof.
  intros m o s inputs cs i st. unfold put_point_direct, for_range, put_input, put_lateral, put_full. nt.
  destruct (kind_eqb _ _); nt.
Qed.
Lemma put_rate_no_throw : forall m cs i j st, no_throw (put_rate m cs i j st).
Proof. intros m cs i j st. unfold put_rate. nt. destruct (kind_eqb _ _); nt. Qed.

(** A full-mesh control beyond the bounds of the rates: the bounds are read out of range. *)
Theorem C81_refuted : forall deg m o s inputs cs closed c, f1_rates deg m -> 2 <= length s ->
  nth_error cs 3 = Some c -> c_kind c = FULL_MESH ->
  pack m o s inputs cs false closed = UB.
Proof.
  intros deg m o s inputs cs closed c (Hn & Hlb & Hub) Hs Hc Hk. unfold pack.
  set (x0 := (0, _)). set (outer := for_range (offset closed) (length s) (put_point_derivative m o s inputs cs) x0).
  assert (N : no_throw outer).
  { unfold outer, for_range. apply loop_no_throw. intros i st. unfold put_point_derivative.
    apply bind_no_throw; [apply put_point_direct_no_throw|]. intros st'. apply loop_no_throw. intros. apply put_rate_no_throw. }
  assert (O : forall x, outer <> Ok x).
  { unfold outer, for_range. intros x. apply (loop_not_ok _ _ _ _ (length s - 1)).
    - unfold offset. destruct closed; lia.
    - intros st y. unfold put_point_derivative. destruct (put_point_direct m o s inputs cs (length s - 1) st) as [st'| |]; cbn [bind]; [|discriminate|discriminate].
      unfold for_range. apply (loop_not_ok _ _ _ _ 3); [lia|]. intros st2 z. unfold put_rate. unfold rd at 1. rewrite Hc. cbn [bind]. rewrite Hk. cbn [kind_eqb].
      destruct (rd (c_rates c) (length s - 1)) as [v| |]; cbn [bind]; [|discriminate|discriminate].
      rewrite Hlb. cbn. discriminate. }
  destruct outer as [x| |]; [now destruct (O x) | now destruct N | reflexivity].
Qed.

(** Otherwise the problem is set up (the hypotheses of C29 on the rates are met). *)
Theorem C81_partial : forall deg m cs, f1_rates deg m ->
  (forall c, nth_error cs 3 = Some c -> c_kind c <> FULL_MESH) -> length cs = n_controls m -> rates_bounded m cs.
Proof.
  intros deg m cs (Hn & Hlb & Hub) H L j c Hc Hk. rewrite Hlb, Hub. cbn [length f1_rate_lb f1_rate_ub].
  assert (j < length cs) by (apply nth_error_Some; congruence). rewrite L, Hn in *.
  assert (j <> 3); [|lia]. intros ->. exact (H c Hc Hk).
Qed.
Example C81_case : exists m, f1_rates 1 m.
Proof.
  exists (MkCar 14 4 11 11 6 [] (fun _ _ _ => []) (fun _ _ _ => []) (fun _ _ _ => []) (fun _ _ _ => []) [] []
            (fun _ => []) (fun _ => []) 1 (fun _ => 1%Q) (fun _ => 1%Q) [] (f1_rate_lb 1) (f1_rate_ub 1)).
  split; [reflexivity|]. split; reflexivity.
Qed.

Print Assumptions C87_flat.
Print Assumptions C87_odd_partial.
Print Assumptions C87_refuted.
Print Assumptions C81_refuted.
Print Assumptions C81_partial.
