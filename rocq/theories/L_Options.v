(** Lemmas about the reading of options. *)
From Coq Require Import String QArith ZArith Bool Arith Lia List.
From Verif Require Import M_Controls M_Laptime M_Options S_Options.
Import ListNotations.
Local Open Scope string_scope.
Local Open Scope nat_scope.

Lemma bind_ok {A B} (r : res A) (f : A -> res B) b : bind r f = Ok b -> exists a, r = Ok a /\ f a = Ok b.
Proof. destruct r; cbn; try discriminate. eauto. Qed.
Lemma need_ok {A} (o : option A) a : need o = Ok a -> o = Some a.
Proof. destruct o; cbn; [intros [= ->]; reflexivity|discriminate]. Qed.

Lemma read_option_is {A} doc path (read : string -> option A) d a :
  read_option doc path read d = Ok a -> option_is doc path read d a.
Proof.
  unfold read_option, read_if, option_is. destruct (element doc path) as [e|]; cbn.
  - intro H. now apply need_ok in H.
  - now intros [= ->].
Qed.

Lemma set_at_length {A} : forall (l : list A) i a, length (set_at l i a) = length l.
Proof. induction l as [|b l IH]; intros [|i] a; cbn; auto. Qed.
Lemma set_at_same {A} : forall (l : list A) i a, i < length l -> nth_error (set_at l i a) i = Some a.
Proof. induction l as [|b l IH]; intros [|i] a H; cbn in *; try lia; auto. apply IH. lia. Qed.
Lemma set_at_other {A} : forall (l : list A) i j a, j <> i -> nth_error (set_at l i a) j = nth_error l j.
Proof. induction l as [|b l IH]; intros [|i] [|j] a H; cbn; auto; congruence. Qed.

Lemma index_of_some : forall n l i, index_of n l = Some i -> nth_error l i = Some n.
Proof.
  intros n l. induction l as [|m l IH]; intros i; cbn; [discriminate|].
  destruct (String.eqb_spec m n) as [->|_]; [now intros [= <-]|].
  destruct (index_of n l); cbn; [|discriminate]. intros [= <-]. now apply IH.
Qed.
Lemma index_of_none : forall n l, index_of n l = None -> ~ In n l.
Proof.
  intros n l. induction l as [|m l IH]; cbn; [auto|].
  destruct (String.eqb_spec m n) as [->|Hn]; [discriminate|].
  destruct (index_of n l); cbn; [discriminate|]. intros _ [H|H]; [congruence|now apply IH].
Qed.
Lemma index_of_lt n l i : index_of n l = Some i -> i < length l.
Proof. intro H. apply index_of_some in H. apply nth_error_Some. congruence. Qed.
Lemma nodup_nth {A} (l : list A) i j a : NoDup l -> nth_error l i = Some a -> nth_error l j = Some a -> i = j.
Proof.
  intros Hd Hi Hj. apply (proj1 (NoDup_nth_error l) Hd); [apply nth_error_Some; congruence|congruence].
Qed.

(** Invariants of a loop over a list. *)
Lemma for_each_inv {A S} (body : A -> S -> res S) (I : list A -> S -> Prop) :
  (forall done e st st', I done st -> body e st = Ok st' -> I (done ++ [e]) st')%list ->
  forall l done st st', I done st -> for_each l body st = Ok st' -> I (done ++ l)%list st'.
Proof.
  intro Hstep. induction l as [|e l IH]; intros done st st' HI H; cbn in H.
  - injection H as <-. now rewrite app_nil_r.
  - apply bind_ok in H as (st1 & H1 & H2). replace (done ++ e :: l)%list with ((done ++ [e]) ++ l)%list by (now rewrite <- app_assoc).
    eapply IH; [|exact H2]. eapply Hstep; eassumption.
Qed.

Lemma distinct_split l1 e l2 : distinct (l1 ++ e :: l2) -> ~ In (x_name e) (map x_name l1).
Proof.
  unfold distinct. rewrite map_app. cbn. intros H C. apply NoDup_remove_2 in H. apply H. apply in_or_app. now left.
Qed.
(** The same for distinct names. *)
Lemma for_each_inv_distinct {S} (body : xml -> S -> res S) (I : list xml -> S -> Prop) :
  (forall done e st st', ~ In (x_name e) (map x_name done) -> I done st -> body e st = Ok st' -> I (done ++ [e]) st')%list ->
  forall l done st st', distinct (done ++ l) -> I done st -> for_each l body st = Ok st' -> I (done ++ l)%list st'.
Proof.
  intro Hstep. induction l as [|e l IH]; intros done st st' Hd HI H; cbn in H.
  - injection H as <-. now rewrite app_nil_r.
  - apply bind_ok in H as (st1 & H1 & H2). replace (done ++ e :: l)%list with ((done ++ [e]) ++ l)%list in * by (now rewrite <- app_assoc).
    eapply IH; [exact Hd| |exact H2]. eapply Hstep; [|exact HI|exact H1].
    rewrite <- app_assoc in Hd. exact (distinct_split _ _ _ Hd).
Qed.

Lemma in_names (l : list xml) e : In e l -> In (x_name e) (map x_name l).
Proof. apply in_map. Qed.

(** *** Controls *)
Lemma read_control_step rds v done e types diss hyper types' diss' hyper' :
  NoDup (v_controls v) ->
  ~ In (x_name e) (map x_name done) ->
  length types = length (v_controls v) -> length diss = length (v_controls v) -> length hyper = length (v_controls v) ->
  (forall i n, nth_error (v_controls v) i = Some n -> control_as_written rds v done types diss hyper i n) ->
  read_control rds v e (types, diss, hyper) = Ok (types', diss', hyper') ->
  length types' = length (v_controls v) /\ length diss' = length (v_controls v) /\ length hyper' = length (v_controls v) /\
  In (x_name e) (v_controls v) /\ (exists t, attribute e "optimal_control_type" = Some t /\ valid_type t) /\
  (forall i n, nth_error (v_controls v) i = Some n -> control_as_written rds v (done ++ [e])%list types' diss' hyper' i n).
Proof.
  intros Hnd Hfresh L1 L2 L3 HI H. unfold read_control in H.
  apply bind_ok in H as (k & Hk & H). apply need_ok in Hk. apply bind_ok in H as (t & Ht & H). apply need_ok in Ht.
  pose proof (index_of_some _ _ _ Hk) as Hk'. pose proof (index_of_lt _ _ _ Hk) as Hlt.
  assert (Hin : In (x_name e) (v_controls v)) by (eapply nth_error_In; exact Hk').
  (* what the step does *)
  assert (HS : valid_type t /\ types' = set_at types k t /\
    (diss' = diss \/ exists x, diss' = set_at diss k x) /\ (hyper' = hyper \/ exists m, hyper' = set_at hyper k m) /\
    (t = "hypermesh" -> exists h m, child e "hypermesh" = Some h /\ r_vec rds (x_value h) = Some m /\ nth_error hyper' k = Some m) /\
    (t = "full-mesh" -> match child e "dissipation" with
                        | Some d => exists x, r_num rds (x_value d) = Some x /\ nth_error diss' k = Some x
                        | None => diss' = diss end)).
  { destruct (String.eqb_spec t "dont optimize") as [->|N1].
    { injection H as <- <- <-. split; [now left|]. split; [reflexivity|]. split; [now left|]. split; [now left|]. split; discriminate. }
    destruct (String.eqb_spec t "constant") as [->|N2].
    { injection H as <- <- <-. split; [right; now left|]. split; [reflexivity|]. split; [now left|]. split; [now left|]. split; discriminate. }
    destruct (String.eqb_spec t "hypermesh") as [->|N3].
    { apply bind_ok in H as (h & Hh & H). apply need_ok in Hh. apply bind_ok in H as (m & Hm & H). apply need_ok in Hm.
      injection H as <- <- <-. split; [right; right; now left|]. split; [reflexivity|]. split; [now left|].
      split; [right; now exists m|]. split; [|discriminate]. intros _. exists h, m. rewrite set_at_same by lia. auto. }
    destruct (String.eqb_spec t "full-mesh") as [->|N4]; [|discriminate].
    destruct (child e "dissipation") as [d|].
    { apply bind_ok in H as (x & Hx & H). apply need_ok in Hx. injection H as <- <- <-.
      split; [right; right; now right|]. split; [reflexivity|]. split; [right; now exists x|]. split; [now left|].
      split; [discriminate|]. intros _. exists x. rewrite set_at_same by lia. auto. }
    { injection H as <- <- <-. split; [right; right; now right|]. split; [reflexivity|]. split; [now left|]. split; [now left|].
      split; [discriminate|]. reflexivity. } }
  destruct HS as (Hv & -> & HD & HH & S1 & S2).
  split; [now rewrite set_at_length|].
  split; [destruct HD as [->|[x ->]]; [assumption|now rewrite set_at_length]|].
  split; [destruct HH as [->|[x ->]]; [assumption|now rewrite set_at_length]|].
  split; [exact Hin|]. split; [now exists t|].
  intros i n Hn. destruct (HI i n Hn) as [A B].
  assert (Hne : n <> x_name e -> i <> k) by (intros C ->; congruence).
  split.
  - intros e' He' Hname. apply in_app_or in He' as [He'|[<-|[]]].
    + (* an earlier node: other name *)
      assert (N : n <> x_name e) by (intros ->; apply Hfresh; rewrite <- Hname; now apply in_names).
      specialize (Hne N). destruct (A e' He' Hname) as (t' & A1 & A2 & A3 & A4). exists t'.
      split; [exact A1|]. split; [now rewrite set_at_other|].
      split.
      { intro E. destruct (A3 E) as (h & m & B1 & B2 & B3). exists h, m. split; [exact B1|]. split; [exact B2|].
        destruct HH as [->|[y ->]]; [exact B3|now rewrite set_at_other]. }
      { intro E. specialize (A4 E). destruct HD as [->|[y ->]]; [exact A4|].
        destruct (child e' "dissipation"); rewrite ?set_at_other by assumption; exact A4. }
    + subst n. assert (i = k) by (eapply nodup_nth; eauto). subst i. exists t. split; [exact Ht|].
      split; [apply set_at_same; lia|]. split; [exact S1|].
      intro E. specialize (S2 E). destruct (child e "dissipation"); [exact S2|].
      rewrite S2. apply B. exact Hfresh.
  - intro Habs. rewrite map_app in Habs. cbn in Habs.
    assert (N : n <> x_name e) by (intros ->; apply Habs, in_or_app; right; now left).
    specialize (Hne N). destruct (B (fun C => Habs (in_or_app _ _ _ (or_introl C)))) as [B1 B2].
    split; [now rewrite set_at_other|]. destruct HD as [->|[y ->]]; [exact B2|now rewrite set_at_other].
Qed.

Lemma nodup_app_r {A} (l1 l2 : list A) : NoDup (l1 ++ l2) -> NoDup l2.
Proof. induction l1; cbn; auto. intro H. inversion H; auto. Qed.
Lemma nodup_app_l {A} (l1 l2 : list A) : NoDup (l1 ++ l2) -> NoDup l1.
Proof.
  induction l1 as [|a l1 IH]; cbn; [constructor|]. intro H. inversion H; subst. constructor; [|auto].
  intro C. apply H2, in_or_app. now left.
Qed.
Lemma nodup_app_disj {A} (l1 l2 : list A) a : NoDup (l1 ++ l2) -> In a l1 -> ~ In a l2.
Proof.
  induction l1 as [|b l1 IH]; cbn; [intros _ []|]. intros H [->|H1] C; apply NoDup_cons_iff in H as [H2 H3].
  - apply H2, in_or_app. now right.
  - exact (IH H3 H1 C).
Qed.

Lemma read_controls_spec rds v doc types diss hyper : consistent v ->
  distinct (nodes doc ["options"; "control_variables"]) ->
  read_controls rds v doc = Ok (types, diss, hyper) ->
  length types = length (v_controls v) /\ length diss = length (v_controls v) /\ length hyper = length (v_controls v) /\
  (forall e, In e (nodes doc ["options"; "control_variables"]) ->
     In (x_name e) (v_controls v) /\ exists t, attribute e "optimal_control_type" = Some t /\ valid_type t) /\
  forall i n, nth_error (v_controls v) i = Some n ->
    control_as_written rds v (nodes doc ["options"; "control_variables"]) types diss hyper i n.
Proof.
  intros (C1 & C2 & _ & _ & _ & _ & C7) Hd H. unfold read_controls, nodes in *.
  assert (Hstart : forall i n, nth_error (v_controls v) i = Some n ->
    control_as_written rds v [] (v_types v) (v_dissipations v) (repeat [] (length (v_controls v))) i n).
  { intros i n Hn. split; [intros e []|]. intros _. split; reflexivity. }
  destruct (element doc ["options"; "control_variables"]) as [e|].
  - set (I := fun done (st : list string * list Q * list (list Q)) => let '(ty, di, hy) := st in
      length ty = length (v_controls v) /\ length di = length (v_controls v) /\ length hy = length (v_controls v) /\
      (forall e, In e done -> In (x_name e) (v_controls v) /\ exists t, attribute e "optimal_control_type" = Some t /\ valid_type t) /\
      forall i n, nth_error (v_controls v) i = Some n -> control_as_written rds v done ty di hy i n).
    change (I ([] ++ x_children e)%list (types, diss, hyper)).
    eapply (for_each_inv_distinct (read_control rds v) I); [|exact Hd| |exact H].
    + intros done e0 [[ty di] hy] [[ty' di'] hy'] Hf (L1 & L2 & L3 & K & HI) Hb.
      destruct (read_control_step rds v done e0 ty di hy ty' di' hy' (nodup_app_r _ _ C7) Hf L1 L2 L3 HI Hb)
        as (M1 & M2 & M3 & M4 & M5 & M6).
      split; [exact M1|]. split; [exact M2|]. split; [exact M3|]. split; [|exact M6].
      intros e1 He. apply in_app_or in He as [He|[<-|[]]]; [now apply K|]. now split.
    + split; [exact C1|]. split; [exact C2|]. split; [apply repeat_length|]. split; [intros e1 []|exact Hstart].
  - injection H as <- <- <-. split; [exact C1|]. split; [exact C2|]. split; [apply repeat_length|].
    split; [intros e []|exact Hstart].
Qed.

(** *** Integral constraints *)
Definition integral_of (rds : readers) (e : xml) (x : string * Q * Q) : Prop :=
  exists l u, child e "lower_bound" = Some l /\ child e "upper_bound" = Some u /\
    fst (fst x) = x_name e /\ r_num rds (x_value l) = Some (snd (fst x)) /\ r_num rds (x_value u) = Some (snd x).

Lemma read_integrals_spec rds doc ints : read_integrals rds doc = Ok ints ->
  Forall2 (integral_of rds) (nodes doc ["options"; "integral_constraints"]) ints.
Proof.
  unfold read_integrals, nodes. destruct (element doc _) as [e|]; [|intros [= <-]; constructor].
  intro H. change (Forall2 (integral_of rds) ([] ++ x_children e)%list ints).
  apply (for_each_inv (read_integral rds) (fun done st => Forall2 (integral_of rds) done st)) with (st := []); [|constructor|exact H].
  intros done e0 st st' HI Hb. unfold read_integral in Hb.
  apply bind_ok in Hb as (l & Hl & Hb). apply bind_ok in Hb as (a & Ha & Hb).
  apply bind_ok in Hb as (u & Hu & Hb). apply bind_ok in Hb as (b & Hb1 & Hb).
  apply need_ok in Hl, Ha, Hu, Hb1. injection Hb as <-.
  apply Forall2_app; [exact HI|]. constructor; [|constructor]. exists l, u. auto.
Qed.

(** *** Bounds *)
Lemma set_bound_ok rds e side i l l' : set_bound rds e side i l = Ok l' ->
  (child e side = None /\ l' = l) \/
  (exists c x, child e side = Some c /\ r_num rds (x_value c) = Some x /\ l' = set_at l i x).
Proof.
  unfold set_bound. destruct (child e side) as [c|]; [|intros [= <-]; now left].
  intro H. apply bind_ok in H as (x & Hx & H). apply need_ok in Hx. injection H as <-. right. now exists c, x.
Qed.

(** One side of one group of bounds, when node [e] is for element [k] of the group. *)
Lemma bound_step rds names done e side defaults l l' k :
  NoDup names -> ~ In (x_name e) (map x_name done) -> nth_error names k = Some (x_name e) -> length l = length names ->
  (forall i n, nth_error names i = Some n -> bound_as_written rds done side defaults l i n) ->
  set_bound rds e side k l = Ok l' ->
  length l' = length names /\
  forall i n, nth_error names i = Some n -> bound_as_written rds (done ++ [e])%list side defaults l' i n.
Proof.
  intros Hnd Hf Hk Hl HI H.
  assert (Hlt : k < length l) by (rewrite Hl; apply nth_error_Some; congruence).
  assert (L : length l' = length names).
  { apply set_bound_ok in H as [[_ ->]|(c & x & _ & _ & ->)]; rewrite ?set_at_length; exact Hl. }
  split; [exact L|]. intros i n Hn. destruct (HI i n Hn) as [A B].
  assert (Hother : i <> k -> nth_error l' i = nth_error l i).
  { intro C. apply set_bound_ok in H as [[_ ->]|(c & x & _ & _ & ->)]; [reflexivity|now apply set_at_other]. }
  assert (Hne : n <> x_name e -> i <> k) by (intros C ->; congruence).
  split.
  - intros e' He' Hname. apply in_app_or in He' as [He'|[<-|[]]].
    + assert (N : n <> x_name e) by (intros ->; apply Hf; rewrite <- Hname; now apply in_names).
      specialize (A e' He' Hname). rewrite (Hother (Hne N)). exact A.
    + subst n. assert (i = k) by (eapply nodup_nth; eauto). subst i.
      apply set_bound_ok in H as [[E ->]|(c & x & E & Ex & ->)]; rewrite E.
      * apply B. exact Hf.
      * exists x. split; [exact Ex|]. now apply set_at_same.
  - intro Habs. rewrite map_app in Habs. cbn in Habs.
    assert (N : n <> x_name e) by (intros ->; apply Habs, in_or_app; right; now left).
    rewrite (Hother (Hne N)). apply B. intro C. apply Habs, in_or_app. now left.
Qed.
(** ... and when it is for another group. *)
Lemma bound_skip rds names done e side defaults l :
  ~ In (x_name e) names ->
  (forall i n, nth_error names i = Some n -> bound_as_written rds done side defaults l i n) ->
  forall i n, nth_error names i = Some n -> bound_as_written rds (done ++ [e])%list side defaults l i n.
Proof.
  intros Hno HI i n Hn. destruct (HI i n Hn) as [A B].
  assert (N : n <> x_name e) by (intros ->; apply Hno; eapply nth_error_In; exact Hn).
  split.
  - intros e' He' Hname. apply in_app_or in He' as [He'|[<-|[]]]; [now apply A|congruence].
  - intro Habs. apply B. intro C. apply Habs. rewrite map_app. apply in_or_app. now left.
Qed.

Definition all_bounds rds v l (st : list Q * list Q * list Q * list Q) : Prop :=
  let '(ql, qu, ul, uu) := st in
  length ql = length (v_inputs v) /\ length qu = length (v_inputs v) /\
  length ul = length (v_controls v) /\ length uu = length (v_controls v) /\
  (forall e, In e l -> In (x_name e) (v_inputs v ++ v_controls v)%list /\ bounds_children_ok e = true) /\
  (forall i n, nth_error (v_inputs v) i = Some n -> bound_as_written rds l "lower" (v_inputs_lb v) ql i n) /\
  (forall i n, nth_error (v_inputs v) i = Some n -> bound_as_written rds l "upper" (v_inputs_ub v) qu i n) /\
  (forall i n, nth_error (v_controls v) i = Some n -> bound_as_written rds l "lower" (v_controls_lb v) ul i n) /\
  (forall i n, nth_error (v_controls v) i = Some n -> bound_as_written rds l "upper" (v_controls_ub v) uu i n).

Lemma read_bounds_spec rds v doc st : consistent v ->
  distinct (nodes doc ["options"; "variable_bounds"]) -> read_bounds rds v doc = Ok st ->
  all_bounds rds v (nodes doc ["options"; "variable_bounds"]) st.
Proof.
  intros (_ & _ & C3 & C4 & C5 & C6 & C7) Hd H. unfold read_bounds, nodes in *.
  assert (Hstart : all_bounds rds v [] (v_inputs_lb v, v_inputs_ub v, v_controls_lb v, v_controls_ub v)).
  { split; [exact C5|]. split; [exact C6|]. split; [exact C3|]. split; [exact C4|]. split; [intros e []|].
    split; [|split; [|split]]; intros i n _; (split; [intros e []|reflexivity]). }
  destruct (element doc _) as [e|]; [|now injection H as <-].
  change (all_bounds rds v ([] ++ x_children e)%list st).
  eapply (for_each_inv_distinct (read_bound rds v) (all_bounds rds v)); [|exact Hd|exact Hstart|exact H].
  clear - C7. intros done e [[[ql qu] ul] uu] st' Hf (L1 & L2 & L3 & L4 & K & I1 & I2 & I3 & I4) Hb. unfold read_bound in Hb.
  destruct (bounds_children_ok e) eqn:Eok; [|discriminate]. cbn [negb] in Hb.
  assert (K' : forall x, In (x_name e) (v_inputs v ++ v_controls v)%list -> In x (done ++ [e])%list ->
    In (x_name x) (v_inputs v ++ v_controls v)%list /\ bounds_children_ok x = true).
  { intros x He Hx. apply in_app_or in Hx as [Hx|[<-|[]]]; [now apply K|now split]. }
  destruct (index_of (x_name e) (v_inputs v)) as [k|] eqn:Ei.
  - apply bind_ok in Hb as (ql' & H1 & Hb). apply bind_ok in Hb as (qu' & H2 & Hb). injection Hb as <-.
    apply index_of_some in Ei. assert (Hin : In (x_name e) (v_inputs v)) by (eapply nth_error_In; exact Ei).
    pose proof (nodup_app_disj _ _ _ C7 Hin) as Hno.
    destruct (bound_step rds _ done e "lower" _ ql ql' k (nodup_app_l _ _ C7) Hf Ei L1 I1 H1) as [M1 J1].
    destruct (bound_step rds _ done e "upper" _ qu qu' k (nodup_app_l _ _ C7) Hf Ei L2 I2 H2) as [M2 J2].
    split; [exact M1|]. split; [exact M2|]. split; [exact L3|]. split; [exact L4|].
    split; [intros x Hx; apply K'; [apply in_or_app; now left|exact Hx]|].
    split; [exact J1|]. split; [exact J2|]. split; now apply bound_skip.
  - destruct (index_of (x_name e) (v_controls v)) as [k|] eqn:Eu; [|discriminate].
    apply bind_ok in Hb as (ul' & H1 & Hb). apply bind_ok in Hb as (uu' & H2 & Hb). injection Hb as <-.
    apply index_of_none in Ei. apply index_of_some in Eu.
    assert (Hin : In (x_name e) (v_controls v)) by (eapply nth_error_In; exact Eu).
    destruct (bound_step rds _ done e "lower" _ ul ul' k (nodup_app_r _ _ C7) Hf Eu L3 I3 H1) as [M1 J1].
    destruct (bound_step rds _ done e "upper" _ uu uu' k (nodup_app_r _ _ C7) Hf Eu L4 I4 H2) as [M2 J2].
    split; [exact L1|]. split; [exact L2|]. split; [exact M1|]. split; [exact M2|].
    split; [intros x Hx; apply K'; [apply in_or_app; now right|exact Hx]|].
    split; [now apply bound_skip|]. split; [now apply bound_skip|]. split; [exact J1|exact J2].
Qed.

(** *** Everything that was read *)
Lemma read_options_inv rds v table doc c : read_options rds v table doc = Ok c ->
  read_option doc ["options"; "warm_start"] (r_bool rds) false = Ok (o_warm c) /\
  read_option doc ["options"; "save_warm_start"] (r_bool rds) false = Ok (o_save_warm c) /\
  read_option doc ["options"; "write_xml"] (r_bool rds) false = Ok (o_write_xml c) /\
  (o_write_xml c = true -> exists e, element doc ["options"; "xml_file_name"] = Some e /\ o_xml_name c = x_value e) /\
  read_option doc ["options"; "print_level"] (r_int rds) 0%Z = Ok (o_print c) /\
  read_outputs rds v doc = Ok (o_prefix c, o_save c) /\
  read_if doc ["options"; "steady_state_speed"] ["options"; "initial_speed"] (r_num rds) 50%Q = Ok (o_speed c) /\
  read_option doc ["options"; "closed_simulation"] (r_bool rds) true = Ok (o_closed c) /\
  read_start v table doc (o_closed c) = Ok (o_set_start c, o_q_start c, o_u_start c) /\
  read_option doc ["options"; "sigma"] (r_num rds) (1#2)%Q = Ok (o_sigma c) /\
  read_option doc ["options"; "compute_sensitivity"] (r_bool rds) false = Ok (o_sensitivity c) /\
  read_controls rds v doc = Ok (o_types c, o_dissipations c, o_hypermeshes c) /\
  read_integrals rds doc = Ok (o_integrals c) /\
  read_bounds rds v doc = Ok (o_inputs_lb c, o_inputs_ub c, o_controls_lb c, o_controls_ub c) /\
  o_direct c = v_direct v.
Proof.
  unfold read_options. intro H.
  apply bind_ok in H as (x1 & H1 & H). apply bind_ok in H as (x2 & H2 & H). apply bind_ok in H as (x3 & H3 & H).
  apply bind_ok in H as (x4 & H4 & H). apply bind_ok in H as (x5 & H5 & H). apply bind_ok in H as ([p s] & H6 & H).
  apply bind_ok in H as (x7 & H7 & H). apply bind_ok in H as (x8 & H8 & H). apply bind_ok in H as ([[b q] u] & H9 & H).
  apply bind_ok in H as (x10 & H10 & H). apply bind_ok in H as (x11 & H11 & H). apply bind_ok in H as ([[ty di] hy] & H12 & H).
  apply bind_ok in H as (x13 & H13 & H). apply bind_ok in H as ([[[ql qu] ul] uu] & H14 & H). injection H as <-.
  cbn [o_warm o_save_warm o_write_xml o_xml_name o_print o_prefix o_save o_speed o_closed o_set_start o_q_start o_u_start
       o_sigma o_sensitivity o_types o_dissipations o_hypermeshes o_integrals o_inputs_lb o_inputs_ub o_controls_lb o_controls_ub o_direct].
  split; [exact H1|]. split; [exact H2|]. split; [exact H3|]. split.
  { intros ->. apply bind_ok in H4 as (e & He & H4). apply need_ok in He. injection H4 as <-. now exists e. }
  split; [exact H5|]. split; [exact H6|]. split; [exact H7|]. split; [exact H8|]. split; [exact H9|]. split; [exact H10|].
  split; [exact H11|]. split; [exact H12|]. split; [exact H13|]. split; [exact H14|]. reflexivity.
Qed.

Lemma copy_into_exact n l r : length l = n -> copy_into n l = Ok r -> r = map Some l.
Proof.
  intros <- H. unfold copy_into in H. rewrite Nat.leb_refl, Nat.sub_diag in H. injection H as <-. apply app_nil_r.
Qed.

Lemma read_start_open v table doc st : read_start v table doc false = Ok st ->
  exists eq eu tq tu vq vu,
    element doc ["options"; "initial_condition"; "q"] = Some eq /\ attribute eq "from_table" = Some tq /\ table tq = Some vq /\
    element doc ["options"; "initial_condition"; "u"] = Some eu /\ attribute eu "from_table" = Some tu /\ table tu = Some vu /\
    copy_into (length (v_inputs v)) vq = Ok (snd (fst st)) /\ copy_into (length (v_controls v)) vu = Ok (snd st) /\ fst (fst st) = true.
Proof.
  unfold read_start. intro H.
  apply bind_ok in H as (x1 & H1 & H). apply bind_ok in H as (eq & H2 & H). apply bind_ok in H as (tq & H3 & H).
  apply bind_ok in H as (vq & H4 & H). apply bind_ok in H as (eu & H5 & H). apply bind_ok in H as (tu & H6 & H).
  apply bind_ok in H as (vu & H7 & H). apply bind_ok in H as (q & H8 & H). apply bind_ok in H as (u & H9 & H).
  injection H as <-. apply need_ok in H2, H3, H4, H5, H6, H7. exists eq, eu, tq, tu, vq, vu. auto 10.
Qed.

(** *** The problem *)
Lemma map4_nth {A B C D E} (f : A -> B -> C -> D -> E) : forall la lb lc ld i,
  nth_error (map4 f la lb lc ld) i =
  match nth_error la i, nth_error lb i, nth_error lc i, nth_error ld i with
  | Some a, Some b, Some c, Some d => Some (f a b c d) | _, _, _, _ => None end.
Proof.
  induction la as [|a la IH]; intros [|b lb] [|c lc] [|d ld] [|i]; cbn; try reflexivity;
    try (now repeat match goal with |- context [match nth_error ?l ?i with _ => _ end] => destruct (nth_error l i) end).
  apply IH.
Qed.

Lemma start_controls_spec : forall gs us gs', start_controls gs us = Ok gs' ->
  length gs' = length gs /\ forall j g', nth_error gs' j = Some g' -> exists g u, nth_error gs j = Some g /\ nth_error us j = Some u /\
    g_kind g' = g_kind g /\ g_mesh g' = g_mesh g /\ g_rates g' = g_rates g /\ g_dissipation g' = g_dissipation g /\
    (g_kind g <> FULL_MESH -> g' = g) /\
    (g_kind g = FULL_MESH -> exists x t, g_values g = x :: t /\ g_values g' = u :: t).
Proof.
  induction gs as [|g gs IH]; intros [|u us] gs' H; cbn in H; try discriminate.
  - injection H as <-. split; [reflexivity|]. intros [|j] g' E; discriminate.
  - injection H as <-. split; [reflexivity|]. intros [|j] g' E; discriminate.
  - apply bind_ok in H as (g1 & H1 & H). apply bind_ok in H as (t & H2 & H). injection H as <-.
    destruct (IH us t H2) as [L P]. split; [cbn; lia|]. intros [|j] g' E; cbn in E; [|exact (P j g' E)].
    injection E as <-. exists g, u. split; [reflexivity|]. split; [reflexivity|].
    destruct (g_kind g) eqn:Ek; cbn [kind_eqb] in H1; try (injection H1 as <-; repeat split; auto; try congruence; discriminate).
    apply bind_ok in H1 as (vs & Hv & H1). injection H1 as <-. cbn. repeat split; try congruence.
    intros _. destruct (g_values g) as [|x vs']; [discriminate|]. injection Hv as <-. now exists x, vs'.
Qed.
