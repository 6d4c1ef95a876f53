(** The object evaluated by the solver and by the sensitivity analysis: what it returns is a function
    of the vector and of the parameters in force, whatever was evaluated or exported before. *)
From Coq Require Import QArith Bool Arith Lia String List.
From Verif Require Import M_Controls S_Controls L_Controls M_Laptime S_Laptime L_Pack L_Pack2 L_Pack3 L_Pack4 S_Colloc L_Colloc
  L_Colloc2 L_Colloc3 M_Export S_Export M_Iterate S_Iterate L_Iterate P_Controls P_Laptime P_Export.
Import ListNotations.
Local Open Scope nat_scope.

Section Histories.
Context {H : Type} (M : machine H) (m : car) (sigma : Q) (s : list Q) (inputs : list (list Q)) (cs : list control_variable)
  (ib : list integral_bound) (direct closed : bool) (q0 u0 du0 : list Q) (n_states : nat)
  (values : H -> list Q) (E : list Q -> list Q -> list Q -> Q -> measured) (np : nat).
Context (B : built M m s inputs cs ib direct closed q0 u0 du0 values E np).
Notation nv := (n_variables direct closed m (length s) cs).
Notation nc := (n_constraints direct closed m (length s) cs ib).
Notation fresh := (fresh_evaluation m sigma s cs ib direct closed q0 u0 du0 E).
Notation goodp := (good m s cs ib direct closed values inputs).

Lemma integ_case : (0 <? n_restricted ib) = true \/ n_restricted ib = 0.
Proof. destruct (Nat.ltb_spec 0 (n_restricted ib)); [left; reflexivity|right; lia]. Qed.

Lemma step_is integ p ob x fgv : integ = true \/ n_restricted ib = 0 -> goodp p ob -> length x = nv -> length fgv = S nc ->
  exists ins fcs obj cons ints ob',
    unpack m x direct closed q0 u0 du0 (length s) cs = Ok (nv, (ins, fcs)) /\ same_shape (inputs, cs) (ins, fcs) /\
    fresh integ p x = Ok (obj, ((nc, cons), ints)) /\ length cons = nc /\
    compute M m sigma s ib direct closed q0 u0 du0 integ ob x fgv = Ok (ob', obj :: cons) /\ goodp p ob' /\
    o_ins ob' = ins /\ o_cs ob' = fcs /\ (integ = true -> o_values ob' = ints).
Proof.
  intros Hi G Hx Hf. destruct B as [B1 B2 B3 B4 B5 B6 B7]. pose proof (guess_facts _ _ _ _ _ B2) as F.
  destruct (compute_is M m sigma s cs ib direct closed q0 u0 du0 values E np inputs B1 F B3 B4 B5 B6 B7 integ p ob x fgv Hi G Hx Hf)
    as (ins & fcs & evs & obj & cons & ints & E1 & E2 & E3 & E4 & E5 & ob' & E6 & E7 & E8 & E9 & E10).
  exists ins, fcs, obj, cons, ints, ob'. unfold fresh_evaluation. rewrite E1. cbn [bind]. rewrite E3. cbn [bind]. rewrite E4. auto 12.
Qed.

Lemma export_is p ob x : goodp p ob -> length x = nv ->
  exists obj cons ints lap ob',
    fresh true p x = Ok (obj, ((nc, cons), ints)) /\
    export_solution m direct closed q0 u0 du0 (length s) cs x = Ok lap /\
    export_object M m sigma s cs ib direct closed q0 u0 du0 ob x = Ok (ob', (lap, ints)) /\ goodp p ob'.
Proof.
  intros G Hx. destruct (step_is true p ob x (repeat 0%Q (S nc)) (or_introl eq_refl) G Hx (repeat_length _ _))
    as (ins & fcs & obj & cons & ints & ob' & E1 & E2 & E3 & E4 & E5 & E6 & E7 & E8 & E9).
  pose proof (guess_facts _ _ _ _ _ (b_guess _ _ _ _ _ _ _ _ _ _ _ _ _ _ B)) as F.
  pose proof (export_unpack _ _ _ _ _ _ _ _ _ _ _ _ _ F E2 E1) as Ex.
  exists obj, cons, ints, (ins, fcs), ob'. split; [exact E3|]. split; [exact Ex|]. split; [|exact E6].
  unfold export_object. cbv zeta. rewrite E5. cbn [bind]. unfold export_solution in Ex. cbv zeta in Ex. rewrite E1 in Ex. cbn [bind] in Ex.
  rewrite E7, E8. apply bind_ok in Ex. destruct Ex as (r & X1 & Ex). apply bind_ok in Ex. destruct Ex as (c & X2 & Ex). injection Ex as -> ->.
  rewrite X1. cbn [bind]. rewrite X2. cbn [bind]. rewrite (E9 eq_refl). reflexivity.
Qed.

Lemma set_good p p' ob : length p' = np -> goodp p ob -> goodp p' (with_car ob (set_all M p' (o_car ob))).
Proof.
  intros Hp (G1 & G2). split; [|exact G2]. cbn. apply (b_memoryless _ _ _ _ _ _ _ _ _ _ _ _ _ _ B). exact Hp.
Qed.

Lemma call_good p ob c : goodp p ob -> call_sized nv nc np c ->
  exists ob', do_call M m sigma s cs ib direct closed q0 u0 du0 ob c = Ok ob' /\ goodp (in_force p [c]) ob'.
Proof.
  intros G Hc. destruct c as [x fgv|p' x fgv|x]; cbn [call_sized] in Hc; unfold in_force; cbn [fold_left do_call].
  - destruct Hc as [Hx Hf]. destruct (step_is _ p ob x fgv integ_case G Hx Hf) as (? & ? & ? & ? & ? & ob' & _ & _ & _ & _ & Ec & Gd & _).
    exists ob'. unfold operator_x. rewrite Ec. auto.
  - destruct Hc as (Hp & Hx & Hf).
    destruct (step_is _ p' _ x fgv integ_case (set_good p p' ob Hp G) Hx Hf) as (? & ? & ? & ? & ? & ob' & _ & _ & _ & _ & Ec & Gd & _).
    exists ob'. unfold operator_xp, operator_x. rewrite Ec. auto.
  - destruct (export_is p ob x G Hc) as (? & ? & ? & ? & ob' & _ & _ & Ex & Gd). exists ob'. rewrite Ex. auto.
Qed.

Lemma calls_good cl : forall p ob, goodp p ob -> Forall (call_sized nv nc np) cl ->
  exists ob', do_calls M m sigma s cs ib direct closed q0 u0 du0 cl ob = Ok ob' /\ goodp (in_force p cl) ob'.
Proof.
  induction cl as [|c cl IH]; intros p ob G Hc.
  - exists ob. split; [reflexivity|exact G].
  - inversion Hc as [|? ? H1 H2]; subst. destruct (call_good p ob c G H1) as (ob1 & E1 & G1).
    destruct (IH _ ob1 G1 H2) as (ob2 & E2 & G2). exists ob2. split; [|exact G2].
    unfold do_calls in *. cbn [for_each]. rewrite E1. cbn [bind]. exact E2.
Qed.

Lemma starts h : goodp (values h) (new_object m s cs ib n_states h).
Proof. apply new_good. apply guess_facts. apply (b_guess _ _ _ _ _ _ _ _ _ _ _ _ _ _ B). Qed.
End Histories.

(** After any history of evaluations, evaluations with new parameters and exports, with vectors
    of the declared sizes: the object is still defined, the objective and the constraints it
    gives for [x] are those of an evaluation that starts from nothing, with the parameters in
    force, whatever the vector of the caller held, and the exported lap and integral quantities are
    those of [x]. *)
Theorem C123_any_history : forall {H} (M : machine H) m sigma s inputs cs ib direct closed q0 u0 du0 n_states values E np h cl,
  built M m s inputs cs ib direct closed q0 u0 du0 values E np ->
  let nv := n_variables direct closed m (length s) cs in
  let nc := n_constraints direct closed m (length s) cs ib in
  let fresh := fresh_evaluation m sigma s cs ib direct closed q0 u0 du0 E in
  let p := in_force (values h) cl in
  Forall (call_sized nv nc np) cl ->
  exists ob, do_calls M m sigma s cs ib direct closed q0 u0 du0 cl (new_object m s cs ib n_states h) = Ok ob /\
    (forall x fgv, length x = nv -> length fgv = S nc ->
       exists ob' obj cons ints, fresh (0 <? n_restricted ib) p x = Ok (obj, ((nc, cons), ints)) /\ length cons = nc /\
         operator_x M m sigma s ib direct closed q0 u0 du0 ob x fgv = Ok (ob', obj :: cons)) /\
    (forall p' x fgv, length p' = np -> length x = nv -> length fgv = S nc ->
       exists ob' obj cons ints, fresh (0 <? n_restricted ib) p' x = Ok (obj, ((nc, cons), ints)) /\ length cons = nc /\
         operator_xp M m sigma s ib direct closed q0 u0 du0 ob p' x fgv = Ok (ob', obj :: cons)) /\
    (forall x, length x = nv ->
       exists ob' obj cons ints lap, fresh true p x = Ok (obj, ((nc, cons), ints)) /\
         export_solution m direct closed q0 u0 du0 (length s) cs x = Ok lap /\
         export_object M m sigma s cs ib direct closed q0 u0 du0 ob x = Ok (ob', (lap, ints))).
Proof.
  intros H M m sigma s inputs cs ib direct closed q0 u0 du0 n_states values E np h cl B nv nc fresh p Hc.
  destruct (calls_good M m sigma s inputs cs ib direct closed q0 u0 du0 values E np B cl (values h) _
    (starts M m s inputs cs ib direct closed q0 u0 du0 n_states values E np B h) Hc) as (ob & E0 & G).
  exists ob. split; [exact E0|]. split; [|split].
  - intros x fgv Hx Hf. destruct (step_is M m sigma s inputs cs ib direct closed q0 u0 du0 values E np B _ _ ob x fgv (integ_case ib) G Hx Hf)
      as (? & ? & obj & cons & ints & ob' & _ & _ & E1 & E2 & E3 & _). exists ob', obj, cons, ints. auto.
  - intros p' x fgv Hp Hx Hf.
    destruct (step_is M m sigma s inputs cs ib direct closed q0 u0 du0 values E np B _ p' _ x fgv (integ_case ib)
      (set_good M m s inputs cs ib direct closed q0 u0 du0 values E np B _ p' ob Hp G) Hx Hf)
      as (? & ? & obj & cons & ints & ob' & _ & _ & E1 & E2 & E3 & _). exists ob', obj, cons, ints. auto.
  - intros x Hx. destruct (export_is M m sigma s inputs cs ib direct closed q0 u0 du0 values E np B _ ob x G Hx)
      as (obj & cons & ints & lap & ob' & E1 & E2 & E3 & _). exists ob', obj, cons, ints, lap. auto.
Qed.

(** Two objects of one problem, whatever cars they were built with and whatever was done with
    each before, give the same objective and constraints for the same vector and the same
    parameters; the vector the caller hands over to be filled plays no part. *)
Theorem C123_same_answers : forall {H} (M : machine H) m sigma s inputs cs ib direct closed q0 u0 du0 n_states values E np h1 h2 cl1 cl2 ob1 ob2,
  built M m s inputs cs ib direct closed q0 u0 du0 values E np ->
  let nv := n_variables direct closed m (length s) cs in
  let nc := n_constraints direct closed m (length s) cs ib in
  Forall (call_sized nv nc np) cl1 -> Forall (call_sized nv nc np) cl2 ->
  do_calls M m sigma s cs ib direct closed q0 u0 du0 cl1 (new_object m s cs ib n_states h1) = Ok ob1 ->
  do_calls M m sigma s cs ib direct closed q0 u0 du0 cl2 (new_object m s cs ib n_states h2) = Ok ob2 ->
  (in_force (values h1) cl1 = in_force (values h2) cl2 ->
   forall x fgv1 fgv2, length x = nv -> length fgv1 = S nc -> length fgv2 = S nc ->
     exists r ob1' ob2', operator_x M m sigma s ib direct closed q0 u0 du0 ob1 x fgv1 = Ok (ob1', r) /\
       operator_x M m sigma s ib direct closed q0 u0 du0 ob2 x fgv2 = Ok (ob2', r)) /\
  (forall p x fgv1 fgv2, length p = np -> length x = nv -> length fgv1 = S nc -> length fgv2 = S nc ->
     exists r ob1' ob2', operator_xp M m sigma s ib direct closed q0 u0 du0 ob1 p x fgv1 = Ok (ob1', r) /\
       operator_xp M m sigma s ib direct closed q0 u0 du0 ob2 p x fgv2 = Ok (ob2', r)) /\
  (in_force (values h1) cl1 = in_force (values h2) cl2 ->
   forall x, length x = nv -> exists e ob1' ob2', export_object M m sigma s cs ib direct closed q0 u0 du0 ob1 x = Ok (ob1', e) /\
       export_object M m sigma s cs ib direct closed q0 u0 du0 ob2 x = Ok (ob2', e)).
Proof.
  intros H M m sigma s inputs cs ib direct closed q0 u0 du0 n_states values E np h1 h2 cl1 cl2 ob1 ob2 B nv nc H1 H2 E1 E2.
  destruct (C123_any_history M m sigma s inputs cs ib direct closed q0 u0 du0 n_states values E np h1 cl1 B H1) as (o1 & D1 & A1 & A2 & A3).
  destruct (C123_any_history M m sigma s inputs cs ib direct closed q0 u0 du0 n_states values E np h2 cl2 B H2) as (o2 & D2 & B1 & B2 & B3).
  rewrite E1 in D1. injection D1 as <-. rewrite E2 in D2. injection D2 as <-. split; [|split].
  - intros Hp x f1 f2 Hx Hf1 Hf2. rewrite <- Hp in B1.
    destruct (A1 x f1 Hx Hf1) as (o1' & obj & cons & ints & F1 & _ & R1). destruct (B1 x f2 Hx Hf2) as (o2' & obj' & cons' & ints' & F2 & _ & R2).
    rewrite F1 in F2. injection F2 as <- <- <-. eauto.
  - intros p x f1 f2 Hp Hx Hf1 Hf2.
    destruct (A2 p x f1 Hp Hx Hf1) as (o1' & obj & cons & ints & F1 & _ & R1).
    destruct (B2 p x f2 Hp Hx Hf2) as (o2' & obj' & cons' & ints' & F2 & _ & R2).
    rewrite F1 in F2. injection F2 as <- <- <-. eauto.
  - intros Hp x Hx. rewrite <- Hp in B3.
    destruct (A3 x Hx) as (o1' & obj & cons & ints & lap & F1 & L1 & R1). destruct (B3 x Hx) as (o2' & obj' & cons' & ints' & lap' & F2 & L2 & R2).
    rewrite F1 in F2. injection F2 as <- <- <-. rewrite L1 in L2. injection L2 as <-. eauto.
Qed.

(** A car that keeps its last row and a count of its evaluations beside one parameter, which
    multiplies the first derivative; open and closed laps of the problem of P_Laptime. *)
Definition ex_E (p r u : list Q) (si : Q) : measured :=
  Measured [nth 0 r 0; nth 1 r 0; nth 2 r 0]%Q [nth 0 p 1 * nth 0 u 0; 1 / nth 0 r 1; nth 3 u 0]%Q [nth 2 r 0%Q] [nth 0 r 0; nth 0 u 0]%Q.
Definition ex_M : machine (list Q * (list Q * nat)) :=
  Machine (fun h r u si => ((fst h, (r, S (snd (snd h)))), ex_E (fst h) r u si)) (fun p h => (p, snd h)).
Example ex_built : forall closed, built ex_M ex_carq ex_s ex_in ex_cs ex_ib true closed [50; 3; 1]%Q [11; 7; 21; 31]%Q [] fst ex_E 1.
Proof.
  intros closed. constructor.
  - cbn. lia.
  - exact ex_guessq.
  - exact ex_car_ok.
  - intros _. repeat split. discriminate.
  - repeat split.
  - intros p r u si. split; [|split; reflexivity]. intros id [<-|[<-|[<-|[]]]]; cbn; lia.
  - intros c [<-|[<-|[<-|[<-|[]]]]] K; try discriminate K. split; [discriminate|]. split.
    + intros [|[|i]] [|[|j]] Hij Hj; cbn in *; try lia; vm_compute; discriminate.
    + intros si [<-|[<-|[<-|[]]]]; vm_compute; discriminate.
Qed.

Example C123_concrete :
  let nv := n_variables true true ex_carq (length ex_s) ex_cs in
  let nc := n_constraints true true ex_carq (length ex_s) ex_cs ex_ib in
  let x1 := map (fun i => inject_Z (Z.of_nat (2 + i))) (seq 0 nv) in
  let x2 := map (fun i => inject_Z (Z.of_nat (3 + 5 * i))) (seq 0 nv) in
  let cl := [Evaluate x1 (repeat 7%Q (S nc)); EvaluateAt [3%Q] x2 (repeat 0%Q (S nc)); Export x1] in
  nv = 12 /\ nc = 10 /\ Forall (call_sized nv nc 1) cl /\ in_force [1%Q] cl = [3%Q] /\
  match do_calls ex_M ex_carq (1 # 2) ex_s ex_cs ex_ib true true [50; 3; 1]%Q [11; 7; 21; 31]%Q [] cl
          (new_object ex_carq ex_s ex_cs ex_ib 3 ([1%Q], ([], 0))) with
  | Ok ob => o_values ob <> [0; 0]%Q /\ snd (snd (o_car ob)) = 12
  | _ => False
  end.
Proof.
  cbv zeta. split; [reflexivity|]. split; [reflexivity|]. split; [repeat constructor|]. split; [reflexivity|].
  vm_compute. split; [discriminate|reflexivity].
Qed.

Print Assumptions C123_any_history.
Print Assumptions C123_same_answers.
