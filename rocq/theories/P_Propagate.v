(** Property theorems C149: propagate_vehicle. *)
From Coq Require Import String QArith Qround ZArith Bool Arith Lia List.
From Verif Require Import M_Controls M_Options M_Propagate S_Propagate.
Import ListNotations.
Local Open Scope string_scope.

Lemma read_asks rds doc name : forall A (f : Q -> A) d, let r := read_option doc ["options"; name] (fun t => option_map f (r_num rds t)) d in
  r <> UB /\ forall y, r = Ok y <-> exists x, asks rds doc name x /\ y = chosen (option_map f x) d.
Proof.
  intros A f d r. unfold r, read_option, read_if, asks. destruct (element doc ["options"; name]) as [e|].
  - cbn [need bind]. destruct (r_num rds (x_value e)) as [x|]; cbn [option_map need].
    + split; [discriminate|]. intros y. split.
      * intros H. injection H as <-. exists (Some x). split; [exists x; split; reflexivity | reflexivity].
      * intros (x' & (y' & H1 & ->) & ->). injection H1 as <-. reflexivity.
    + split; [discriminate|]. intros y. split; [discriminate|]. intros (x' & (y' & H1 & _) & _). discriminate.
  - split; [discriminate|]. intros y. split.
    + intros H. injection H as <-. exists None. split; reflexivity.
    + intros (x' & -> & ->). reflexivity.
Qed.
Lemma read_asks_id rds doc name d : let r := read_option doc ["options"; name] (r_num rds) d in
  r <> UB /\ forall y, r = Ok y <-> exists x, asks rds doc name x /\ y = chosen x d.
Proof.
  intros r. pose proof (read_asks rds doc name Q (fun x => x) d) as H. cbv zeta in H.
  assert (E : read_option doc ["options"; name] (fun t => option_map (fun x => x) (r_num rds t)) d = r).
  { unfold r, read_option, read_if. destruct (element doc _) as [e|]; [|reflexivity]. cbn [need bind]. destruct (r_num rds (x_value e)); reflexivity. }
  rewrite E in H. destruct H as [H1 H2]. split; [exact H1|]. intros y. rewrite H2. split; intros (x & A & ->); exists x; (split; [exact A|]); destruct x; reflexivity.
Qed.

Lemma to_integer_spec x n : without_decimals x n <-> n = to_integer x.
Proof.
  unfold without_decimals, to_integer. pose proof (Qfloor_le x) as F1. pose proof (Qlt_floor x) as F2. pose proof (Qle_ceiling x) as C1. pose proof (Qceiling_lt x) as C2.
  assert (A : forall a : Z, (inject_Z a + 1 == inject_Z (a + 1))%Q) by (intros a; rewrite inject_Z_plus; reflexivity).
  assert (B : forall a : Z, (inject_Z a - 1 == inject_Z (a - 1))%Q) by (intros a; unfold Z.sub, Qminus; rewrite inject_Z_plus; reflexivity).
  destruct (Qle_bool 0 x) eqn:E.
  - apply Qle_bool_iff in E. split.
    + intros [[_ [H1 H2]]|[H _]]; [|exfalso; apply (Qlt_not_le _ _ H E)]. rewrite A in H2.
      assert (n < Qfloor x + 1)%Z by (rewrite Zlt_Qlt; eapply Qle_lt_trans; [exact H1 | exact F2]). assert (Qfloor x < n + 1)%Z by (rewrite Zlt_Qlt; eapply Qle_lt_trans; [exact F1 | exact H2]). lia.
    + intros ->. left. split; [exact E|]. rewrite A. split; [exact F1 | exact F2].
  - assert (E' : (x < 0)%Q) by (apply Qnot_le_lt; intros H; apply Qle_bool_iff in H; congruence). split.
    + intros [[H _]|[_ [H1 H2]]]; [exfalso; apply (Qlt_not_le _ _ E' H)|]. rewrite B in H1.
      assert (n - 1 < Qceiling x)%Z by (rewrite Zlt_Qlt; eapply Qlt_le_trans; [exact H1 | exact C1]). assert (Qceiling x - 1 < n)%Z by (rewrite Zlt_Qlt; eapply Qlt_le_trans; [exact C2 | exact H2]). lia.
    + intros ->. right. split; [exact E'|]. rewrite B. split; [exact C2 | exact C1].
Qed.
Lemma iterations_spec x d n : (match x with Some y => without_decimals y n | None => n = d end) <-> n = chosen (option_map to_integer x) d.
Proof. destruct x as [y|]; cbn [option_map chosen]; [apply to_integer_spec | reflexivity]. Qed.

Section Vehicles.
Context {C T : Type} (parse : string -> option xml) (rds : readers) (defaults : step_options).
Notation go := (propagate parse rds defaults).

(** ** C149 *)
(** The options are read if and only if every element that is there holds a number, and then each one is its own. *)
Theorem C149_options text o : read_step_options parse rds defaults text = Ok o <-> options_of parse rds defaults text o.
Proof.
  unfold read_step_options, options_of. destruct (String.eqb_spec text "") as [->|Hn].
  { split; [intros H; injection H as <-; left; split; reflexivity | intros [[_ ->]|[H _]]; [reflexivity | contradiction]]. }
  destruct (parse text) as [doc|]; cbn [need bind].
  2: { split; [discriminate | intros [[H _]|(_ & doc & H)]; [contradiction|]]. destruct H as (? & ? & ? & ? & H & _). discriminate. }
  pose proof (read_asks_id rds doc "sigma" (o_sigma defaults)) as S. pose proof (read_asks rds doc "max_iter" Z to_integer (o_max_iter defaults)) as I.
  pose proof (read_asks_id rds doc "error_tolerance" (o_tolerance defaults)) as E. pose proof (read_asks_id rds doc "relaxation_factor" (o_relaxation defaults)) as R.
  cbv zeta in S, I, E, R. destruct S as [_ S], I as [_ I], E as [_ E], R as [_ R]. split.
  - intros H. right. split; [exact Hn|]. exists doc.
    destruct (read_option doc ["options"; "sigma"] _ _) as [s| |] eqn:Es; cbn [bind] in H; try discriminate.
    destruct (read_option doc ["options"; "max_iter"] _ _) as [i| |] eqn:Ei; cbn [bind] in H; try discriminate.
    destruct (read_option doc ["options"; "error_tolerance"] _ _) as [e| |] eqn:Ee; cbn [bind] in H; try discriminate.
    destruct (read_option doc ["options"; "relaxation_factor"] _ _) as [r| |] eqn:Er; cbn [bind] in H; try discriminate.
    injection H as <-. destruct (proj1 (S s) eq_refl) as (s' & S1 & S2). destruct (proj1 (I i) eq_refl) as (i' & I1 & I2).
    destruct (proj1 (E e) eq_refl) as (e' & E1 & E2). destruct (proj1 (R r) eq_refl) as (r' & R1 & R2).
    exists s', i', e', r'. cbn [o_sigma o_max_iter o_tolerance o_relaxation]. split; [reflexivity|]. do 5 (split; [assumption|]). split; [apply iterations_spec; exact I2 | split; assumption].
  - intros [[H _]|(_ & doc' & s & i & e & r & Hd & A1 & A2 & A3 & A4 & B1 & B2 & B3 & B4)]; [contradiction|]. injection Hd as <-. apply iterations_spec in B2.
    rewrite (proj2 (S (o_sigma o)) (ex_intro _ s (conj A1 B1))). cbn [bind].
    rewrite (proj2 (I (o_max_iter o)) (ex_intro _ i (conj A2 B2))). cbn [bind].
    rewrite (proj2 (E (o_tolerance o)) (ex_intro _ e (conj A3 B3))). cbn [bind].
    rewrite (proj2 (R (o_relaxation o)) (ex_intro _ r (conj A4 B4))). cbn [bind]. destruct o; reflexivity.
Qed.
Lemma options_defined text : read_step_options parse rds defaults text <> UB.
Proof.
  unfold read_step_options. destruct (String.eqb text ""); [discriminate|]. destruct (parse text) as [doc|]; cbn [need bind]; [|discriminate].
  pose proof (proj1 (read_asks_id rds doc "sigma" (o_sigma defaults))) as S. pose proof (proj1 (read_asks rds doc "max_iter" Z to_integer (o_max_iter defaults))) as I.
  pose proof (proj1 (read_asks_id rds doc "error_tolerance" (o_tolerance defaults))) as E. pose proof (proj1 (read_asks_id rds doc "relaxation_factor" (o_relaxation defaults))) as R.
  destruct (read_option doc ["options"; "sigma"] _ _); cbn [bind]; [|discriminate|contradiction].
  destruct (read_option doc ["options"; "max_iter"] _ _); cbn [bind]; [|discriminate|contradiction].
  destruct (read_option doc ["options"; "error_tolerance"] _ _); cbn [bind]; [|discriminate|contradiction].
  destruct (read_option doc ["options"; "relaxation_factor"] _ _); cbn [bind]; [discriminate|discriminate|contradiction].
Qed.

Lemma propagation_steps (k : vehicle_class C T) car q u s ds u_next text : proper_step k -> buffers_hold k q u u_next ->
  takes_step parse rds defaults k car q u s ds u_next text (compute_propagation parse rds defaults k car q u s ds u_next text).
Proof.
  intros P (B1 & B2 & B3). unfold compute_propagation, copy_in.
  rewrite (proj2 (Nat.ltb_ge _ _) B1), (proj2 (Nat.ltb_ge _ _) B2), (proj2 (Nat.ltb_ge _ _) B3). cbn [bind].
  pose proof (C149_options text) as O. pose proof (options_defined text) as D.
  destruct (read_step_options parse rds defaults text) as [o| |]; cbn [bind]; [| |contradiction].
  2: { intros (o & x & H & _). apply O in H. discriminate. }
  assert (L : length (firstn (vc_inputs k) q) = vc_inputs k) by (apply firstn_length_le; exact B1).
  destruct (P car (firstn (vc_controls k) u) (firstn (vc_controls k) u_next) (firstn (vc_inputs k) q) s ds o L) as [P1 P2].
  destruct (vc_step k car _ _ _ s ds o) as [x| |] eqn:Ex; cbn [bind]; [| |contradiction].
  - specialize (P2 x eq_refl). unfold copy_out. rewrite P2, (proj2 (Nat.ltb_ge _ _) B1). cbn [takes_step]. exists o, x.
    split; [apply O; reflexivity|]. split; [exact Ex|].
    rewrite firstn_app, skipn_app, P2, Nat.sub_diag, <- P2, firstn_all, skipn_all, app_nil_r. cbn [firstn skipn app].
    split; [reflexivity|]. split; [reflexivity|]. rewrite app_length, skipn_length. lia.
  - intros (o' & x & H & Hx). apply O in H. injection H as <-. rewrite Ex in Hx. discriminate.
Qed.

(** On the plane: the car of the plane takes the step, nothing stored changes. *)
Theorem C149_plane_partial (kk fk k : vehicle_class C T) karts f1s tracks name tr v q u s ds u_next text :
  (karts name = Some v /\ k = kk \/ karts name = None /\ f1s name = Some v /\ k = fk) -> proper_step k -> buffers_hold k q u u_next ->
  let '(v', r) := go kk fk karts f1s tracks name tr q u s ds u_next false text in
  v' = Some v /\ takes_step parse rds defaults k (sv_cartesian v) q u s ds u_next text r.
Proof.
  intros H P B. unfold propagate, propagate_stored. destruct H as [[-> ->]|(-> & -> & ->)]; (split; [reflexivity | apply propagation_steps; assumption]).
Qed.
(** On a circuit: the vehicle is put on it, and its curvilinear car takes the step. *)
Theorem C149_circuit_partial (kk fk k : vehicle_class C T) karts f1s tracks name tr v q u s ds u_next text :
  (karts name = Some v /\ k = kk \/ karts name = None /\ f1s name = Some v /\ k = fk) -> proper_step k -> buffers_hold k q u u_next ->
  let '(v', r) := go kk fk karts f1s tracks name tr q u s ds u_next true text in
  match tracks tr with
  | None => v' = Some v /\ r = Throw
  | Some t =>
    let '(c1, ok1) := vc_track k (sv_curvilinear v) t in let '(c2, ok2) := vc_track k (sv_scalar v) t in
    if ok1 && ok2 then v' = Some (Stored (sv_cartesian v) c1 c2) /\ takes_step parse rds defaults k c1 q u s ds u_next text r
    else r = Throw /\ exists w, v' = Some w /\ sv_cartesian w = sv_cartesian v
  end.
Proof.
  intros H P B. unfold propagate, propagate_stored. destruct H as [[-> ->]|(-> & -> & ->)]; (destruct (tracks tr) as [t|]; [|split; reflexivity]);
  (match goal with |- context [vc_track ?k (sv_curvilinear v) t] => destruct (vc_track k (sv_curvilinear v) t) as [c1 [|]]; cbn [negb]; destruct (vc_track k (sv_scalar v) t) as [c2 [|]]; cbn [negb andb] end);
  first [split; [reflexivity | apply propagation_steps; assumption] | split; [reflexivity | eexists; split; reflexivity]].
Qed.
(** A vehicle that does not exist is not reported: the call returns and the states have not moved. *)
Theorem C149_unknown_refuted (kk fk : vehicle_class C T) karts f1s tracks name tr q u s ds u_next circuit text :
  karts name = None -> f1s name = None -> go kk fk karts f1s tracks name tr q u s ds u_next circuit text = (None, Ok q).
Proof. intros H1 H2. unfold propagate. rewrite H1, H2. reflexivity. Qed.
End Vehicles.

(** A vehicle with two states and one control that moves at constant speed. *)
Definition point_class : vehicle_class nat nat :=
  VehicleClass 2 1 (fun _ u _ q s ds o => match q, u with [a; b], [c] => Ok [(a + ds * b)%Q; (b + ds * c)%Q] | _, _ => Throw end) (fun _ t => (t, Nat.ltb t 5)).
Definition point_text : xml := Elem "options" [] "" [Elem "sigma" [] "1" []; Elem "max_iter" [] "7/2" []].
Definition point_readers : readers := Readers (fun _ => None) (fun _ => None)
  (fun s => if String.eqb s "1" then Some 1%Q else if String.eqb s "7/2" then Some (7#2)%Q else None) (fun _ => None) (fun s => s).
Example C149_text_case : options_of (fun s => if String.eqb s "<text>" then Some point_text else None) point_readers (StepOptions (1#2) 10 (1#100) (9#10)) "<text>"
  (StepOptions 1 3 (1#100) (9#10)).
Proof. apply C149_options. reflexivity. Qed.
Example C149_case : proper_step point_class /\ buffers_hold point_class [1; 2; 7]%Q [3]%Q [3]%Q /\
  (let p := propagate (fun _ => None) (Readers (fun _ => None) (fun _ => None) (fun _ => None) (fun _ => None) (fun s => s)) (StepOptions (1#2) 10 0 1)
    point_class point_class (fun n => if String.eqb n "car" then Some (Stored 0 0 0)%nat else None) (fun _ => None) (fun n => if String.eqb n "track" then Some 3%nat else None) in
   p "car" "track" [1; 2; 7]%Q [3]%Q 0%Q 1%Q [3]%Q true "" = (Some (Stored 0 3 3)%nat, Ok [1 + 1 * 2; 2 + 1 * 3; 7]%Q) /\
   p "car" "road" [1; 2; 7]%Q [3]%Q 0%Q 1%Q [3]%Q true "" = (Some (Stored 0 0 0)%nat, Throw) /\
   snd (p "car" "track" [1; 2; 7]%Q [3]%Q 0%Q 1%Q [3]%Q false "<options") = Throw).
Proof.
  split; [|split; [cbn; unfold buffers_hold; cbn; lia | repeat split]].
  intros car u u' q s ds o L. cbn in *. destruct q as [|a [|b [|x q]]]; try discriminate. destruct u as [|c [|y u]]; (split; [discriminate|]); intros q' H; try discriminate.
  injection H as <-. reflexivity.
Qed.

Print Assumptions C149_options.
Print Assumptions C149_plane_partial.
Print Assumptions C149_circuit_partial.
Print Assumptions C149_unknown_refuted.
