(** Lemmas: one evaluation of the object is the evaluation of M_Laptime, whatever the members
    and the vector of the caller hold. *)
From Coq Require Import QArith Bool Arith Lia List.
From Verif Require Import M_Controls S_Controls L_Controls M_Laptime S_Laptime L_Pack L_Pack2 L_Pack3 L_Pack4 S_Colloc L_Colloc
  L_Colloc2 L_Colloc3 M_Export M_Iterate S_Iterate.
Import ListNotations.
Local Open Scope nat_scope.

(** ** Loading *)
Definition loaded (m : car) (x : list Q) (direct closed : bool) (q0 u0 du0 : list Q) (n : nat) (cf0 : config) : res unpacked :=
  bind (if closed then Ok cf0 else start_point m direct q0 u0 du0 cf0) (fun cf =>
  bind (for_range (offset closed) n (load_point m x direct) (0, cf)) (fun st =>
  for_range 0 (n_controls m) (load_rest x) st)).

Lemma load_on m direct closed n ins cs x q0 u0 du0 cf0 :
  in_time m + 1 < n_inputs m -> facts direct m n ins cs -> same_shape (ins, cs) cf0 ->
  length x = n_variables direct closed m n cs ->
  (closed = false -> length q0 = n_inputs m /\ length u0 = n_controls m /\ (direct = false -> length du0 = n_controls m)) ->
  exists cf, loaded m x direct closed q0 u0 du0 n cf0 = Ok (n_variables direct closed m n cs, cf) /\
    same_shape (ins, cs) cf /\
    (forall p sl, nth_error (slots m direct closed n cs) p = Some sl -> get cf sl = nth_error x p) /\
    (closed = false ->
       (forall j, get cf (SIn 0 j) = nth_error q0 j) /\
       (forall j c, nth_error cs j = Some c -> c_kind c = FULL_MESH ->
         get cf (SVal j 0) = nth_error u0 j /\ (direct = false -> get cf (SRate j 0) = nth_error du0 j))) /\
    (forall sl, ~ unknown m direct closed n cs sl ->
       (closed = false -> (forall j, sl <> SIn 0 j) /\
         (forall j c, nth_error cs j = Some c -> c_kind c = FULL_MESH -> sl <> SVal j 0 /\ sl <> SRate j 0)) ->
       get cf sl = get cf0 sl).
Proof.
  intros Ht F Hz Hx Hopen. pose proof (f_cs _ _ _ _ _ F) as Hl. destruct cf0 as [i0 c0].
  assert (Fz : facts direct m n i0 c0) by (eapply facts_shape; [exact F|exact Hz]).
  pose proof Hz as (_ & Hlc & _ & Hcc). cbn [snd] in Hlc, Hcc.
  assert (Hstart : exists cf1, (if closed then Ok (i0, c0) else start_point m direct q0 u0 du0 (i0, c0)) = Ok cf1 /\
    same_shape (ins, cs) cf1 /\
    (closed = false ->
       (forall j, get cf1 (SIn 0 j) = nth_error q0 j) /\
       (forall j c, nth_error cs j = Some c -> c_kind c = FULL_MESH ->
         get cf1 (SVal j 0) = nth_error u0 j /\ (direct = false -> get cf1 (SRate j 0) = nth_error du0 j))) /\
    (forall sl, (closed = false -> (forall j, sl <> SIn 0 j) /\
         (forall j c, nth_error cs j = Some c -> c_kind c = FULL_MESH -> sl <> SVal j 0 /\ sl <> SRate j 0)) ->
       get cf1 sl = get (i0, c0) sl)).
  { destruct closed.
    - exists (i0, c0). split; [reflexivity|]. split; [exact Hz|]. split; [discriminate|]. reflexivity.
    - destruct (Hopen eq_refl) as (Hq & Hu & Hdu).
      destruct (start_point_spec m direct n _ _ Fz q0 u0 du0 Hq Hu Hdu) as (cf & E & Hs & Hin & Hc & Ho).
      exists cf. split; [exact E|]. split; [eapply same_shape_trans; eauto|]. split.
      + intros _. split; [exact Hin|]. intros j c Ej K.
        destruct (nth_error_transport _ _ _ _ Hlc Ej) as [c' Ec']. pose proof (Hcc j c c' Ej Ec') as (Hk & _).
        apply (Hc j c'); [exact Ec'|congruence].
      + intros sl Hsl. destruct (Hsl eq_refl) as [H1 H2]. apply Ho; [exact H1|].
        intros j c' Ec' K. destruct (nth_error_transport _ _ _ _ (eq_sym Hlc) Ec') as [c Ec].
        pose proof (Hcc j c c' Ec Ec') as (Hk & _). apply (H2 j c); [exact Ec|congruence]. }
  destruct Hstart as (cf1 & E0 & Hs0 & Hop0 & Hsame).
  unfold loaded.
  match goal with |- context [bind ?I _] => match I with if _ then _ else _ => assert (EI : I = Ok cf1) by exact E0; rewrite EI; clear EI end end.
  cbn [bind].
  pose proof (unpack_loads m x direct ins cs Hl closed n cf1 Ht Hs0) as EU.
  pose proof (slots_length m direct closed n ins cs Ht F) as Hsl.
  destruct (loads_ok x (slots m direct closed n cs) 0 cf1) as (cf & E & Hs & Hno & Hyes).
  - apply slots_NoDup; assumption.
  - intros sl Hin. apply in_slots in Hin; [|assumption|assumption].
    destruct (slots_valid _ _ _ _ _ _ _ F Hin) as [v Ev]. eapply get_some_shape; eauto.
  - lia.
  - exists cf. cbn [plus] in E. rewrite Hsl in E. split; [exact (eq_trans EU E)|].
    split; [eapply same_shape_trans; eauto|]. split; [intros p sl Ep; rewrite (Hyes p sl Ep); reflexivity|].
    assert (Hnin : forall sl, ~ unknown m direct closed n cs sl -> get cf sl = get cf1 sl).
    { intros sl Hu. apply Hno. intros Hin. apply Hu. apply in_slots in Hin; assumption. }
    split.
    + intros Hc. destruct (Hop0 Hc) as [H1 H2]. subst closed. split.
      * intros j. rewrite Hnin; [apply H1|]. cbn. lia.
      * intros j c Ej K. destruct (H2 j c Ej K) as [H3 H4]. split.
        -- rewrite Hnin; [exact H3|]. cbn. intros (c' & Ec' & [(_ & ?)|(K' & _)]); [lia|].
           rewrite Ej in Ec'. injection Ec' as <-. destruct K'; congruence.
        -- intros Hd. rewrite Hnin; [auto|]. cbn. lia.
    + intros sl Hu Hst. rewrite Hnin by exact Hu. apply Hsame. exact Hst.
Qed.

(** Two configurations of the same shape with the same entries are the same. *)
Lemma config_ext cf cf' : same_shape cf cf' -> (forall sl, get cf sl = get cf' sl) -> cf = cf'.
Proof.
  destruct cf as [ins cs], cf' as [ins' cs']. intros Hs Hg. f_equal.
  - pose proof Hs as (H1 & _ & _ & _). cbn in H1. apply list_ext. intros i.
    destruct (nth_error ins i) as [r|] eqn:E.
    + destruct (nth_error_transport _ _ _ _ H1 E) as [r' E']. rewrite E'. f_equal. apply list_ext. intros j.
      specialize (Hg (SIn i j)). cbn in Hg. rewrite E, E' in Hg. exact Hg.
    + destruct (nth_error ins' i) eqn:E'; [|reflexivity].
      destruct (nth_error_transport _ _ _ _ (eq_sym H1) E'). congruence.
  - apply (controls_ext ins ins' cs cs' Hs); intros; apply Hg.
Qed.

(** Which entries an evaluation writes. *)
Definition untouched (m : car) (direct closed : bool) (n : nat) (cs : list control_variable) (sl : slot) : Prop :=
  ~ unknown m direct closed n cs sl /\
  (closed = false -> (forall j, sl <> SIn 0 j) /\
     (forall j c, nth_error cs j = Some c -> c_kind c = FULL_MESH -> sl <> SVal j 0 /\ sl <> SRate j 0)).

Lemma load_same m direct closed n ins cs x q0 u0 du0 cf0 :
  in_time m + 1 < n_inputs m -> facts direct m n ins cs -> same_shape (ins, cs) cf0 ->
  (forall sl, untouched m direct closed n cs sl -> get cf0 sl = get (zeros m n cs) sl) ->
  length x = n_variables direct closed m n cs ->
  (closed = false -> length q0 = n_inputs m /\ length u0 = n_controls m /\ (direct = false -> length du0 = n_controls m)) ->
  exists cf, loaded m x direct closed q0 u0 du0 n cf0 = Ok (n_variables direct closed m n cs, cf) /\
    unpack m x direct closed q0 u0 du0 n cs = Ok (n_variables direct closed m n cs, cf) /\
    same_shape (ins, cs) cf /\
    (forall sl, untouched m direct closed n cs sl -> get cf sl = get (zeros m n cs) sl).
Proof.
  intros Ht F Hz Hsame Hx Hopen.
  destruct (load_on m direct closed n ins cs x q0 u0 du0 cf0 Ht F Hz Hx Hopen) as (cf & E & Hs & Hx1 & Ho1 & Hu1).
  destruct (load_on m direct closed n ins cs x q0 u0 du0 (zeros m n cs) Ht F (zeros_shape _ _ _ _ _ F) Hx Hopen)
    as (cf' & E' & Hs' & Hx2 & Ho2 & Hu2).
  assert (Eq : cf = cf').
  { apply config_ext; [eapply same_shape_trans; [apply same_shape_sym; exact Hs|exact Hs']|].
    pose proof (f_cs _ _ _ _ _ F) as Hl.
    assert (Hrest : forall sl, untouched m direct closed n cs sl -> get cf sl = get cf' sl).
    { intros sl [U1 U2]. rewrite Hu1, Hu2 by assumption. apply Hsame. split; assumption. }
    intros sl.
    destruct (in_dec slot_eq_dec sl (slots m direct closed n cs)) as [Hin|Hni].
    { apply In_nth_error in Hin. destruct Hin as [p Hp]. rewrite (Hx1 p sl Hp), (Hx2 p sl Hp). reflexivity. }
    assert (Hnu : ~ unknown m direct closed n cs sl) by (intros G; apply Hni; apply in_slots; assumption).
    destruct closed eqn:Hc; [apply Hrest; split; [exact Hnu|discriminate]|].
    destruct (Ho1 eq_refl) as [A1 A2]. destruct (Ho2 eq_refl) as [B1 B2].
    destruct sl as [i j|j i|j i].
    - destruct i as [|i]; [rewrite A1, B1; reflexivity|]. apply Hrest. split; [exact Hnu|]. intros _. split.
      + intros j' G. discriminate.
      + intros; split; discriminate.
    - destruct (nth_error cs j) as [c|] eqn:Ec.
      + destruct i as [|i].
        * destruct (kind_eqb (c_kind c) FULL_MESH) eqn:K.
          -- apply kind_eqb_spec in K. destruct (A2 j c Ec K) as [G1 _]. destruct (B2 j c Ec K) as [G2 _]. congruence.
          -- apply Hrest. split; [exact Hnu|]. intros _. split; [discriminate|]. intros j' c' Ec' K'. split; [|discriminate].
             intros G. injection G as ->. rewrite Ec in Ec'. injection Ec' as <-. rewrite K' in K. discriminate.
        * apply Hrest. split; [exact Hnu|]. intros _. split; [discriminate|]. intros j' c' Ec' K'. split; intros G; discriminate.
      + apply Hrest. split; [exact Hnu|]. intros _. split; [discriminate|]. intros j' c' Ec' K'. split; [|discriminate].
        intros G. injection G as -> ->. congruence.
    - destruct (nth_error cs j) as [c|] eqn:Ec.
      + destruct i as [|i].
        * destruct (kind_eqb (c_kind c) FULL_MESH) eqn:K.
          -- apply kind_eqb_spec in K. destruct direct eqn:Hd.
             ++ assert (Hn : get (ins, cs) (SRate j 0) = None).
                { cbn [get snd]. rewrite Ec. pose proof (f_rates _ _ _ _ _ F j c Ec K) as Hr. cbn in Hr.
                  destruct (c_rates c); [reflexivity|discriminate]. }
                rewrite (get_none_shape _ _ _ Hs Hn), (get_none_shape _ _ _ Hs' Hn). reflexivity.
             ++ destruct (A2 j c Ec K) as [_ G1]. destruct (B2 j c Ec K) as [_ G2]. rewrite G1, G2 by reflexivity. reflexivity.
          -- apply Hrest. split; [exact Hnu|]. intros _. split; [discriminate|]. intros j' c' Ec' K'. split; [discriminate|].
             intros G. injection G as ->. rewrite Ec in Ec'. injection Ec' as <-. rewrite K' in K. discriminate.
        * apply Hrest. split; [exact Hnu|]. intros _. split; [discriminate|]. intros j' c' Ec' K'. split; intros G; discriminate.
      + apply Hrest. split; [exact Hnu|]. intros _. split; [discriminate|]. intros j' c' Ec' K'. split; [discriminate|].
        intros G. injection G as -> ->. congruence. }
  subst cf'. exists cf. split; [exact E|]. split; [exact E'|]. split; [exact Hs|].
  intros sl [U1 U2]. apply Hu2; assumption.
Qed.

(** ** Results that agree up to what is still to be written *)
Definition near (integ : bool) (a b : fg_state) : Prop :=
  fst a = fst b /\ fst (fst (snd a)) = fst (fst (snd b)) /\
  length (snd (fst (snd a))) = length (snd (fst (snd b))) /\
  firstn (fst (fst (snd a))) (snd (fst (snd a))) = firstn (fst (fst (snd b))) (snd (fst (snd b))) /\
  length (snd (snd a)) = length (snd (snd b)) /\ (integ = true -> snd (snd a) = snd (snd b)).

Definition sim (integ : bool) (f g : fg_state -> res fg_state) : Prop :=
  forall a b b', near integ a b -> g b = Ok b' -> exists a', f a = Ok a' /\ near integ a' b'.

Lemma sim_ok integ : sim integ (fun st => Ok st) (fun st => Ok st).
Proof. intros a b b' Hn E. injection E as <-. eauto. Qed.

Lemma sim_bind integ f g f' g' : sim integ f g -> sim integ f' g' ->
  sim integ (fun st => bind (f st) f') (fun st => bind (g st) g').
Proof.
  intros H1 H2 a b b' Hn E. apply bind_ok in E. destruct E as (c & Ec & E).
  destruct (H1 a b c Hn Ec) as (a1 & E1 & N1). destruct (H2 a1 c b' N1 E) as (a2 & E2 & N2).
  exists a2. rewrite E1. cbn [bind]. auto.
Qed.

Lemma sim_for_each {A} integ (l : list A) f g : (forall a, In a l -> sim integ (f a) (g a)) ->
  sim integ (for_each l f) (for_each l g).
Proof.
  induction l as [|x l IH]; intros Hl; cbn [for_each].
  - apply sim_ok.
  - apply sim_bind; [apply Hl; left; reflexivity|]. apply IH. intros a Ha. apply Hl. right. exact Ha.
Qed.

Lemma sim_put integ v : sim integ (put_fg v) (put_fg v).
Proof.
  intros [o [[k w] i]] [o' [[k' w'] i']] b' (H1 & H2 & H3 & H4 & H5) E. cbn [fst snd] in *. subst o' k'.
  unfold put_fg, put in *. cbn [fst snd] in *. rewrite <- H3 in E. destruct (k <? length w) eqn:Hk; cbn [bind] in *; [|discriminate].
  apply Nat.ltb_lt in Hk. injection E as <-. eexists. split; [reflexivity|].
  assert (F1 : forall z : list Q, k < length z -> length (firstn k z ++ v :: skipn (S k) z) = length z).
  { intros z Hz. rewrite app_length, firstn_length. cbn [length]. rewrite skipn_length. lia. }
  assert (F2 : forall z : list Q, k < length z -> firstn (S k) (firstn k z ++ v :: skipn (S k) z) = firstn k z ++ [v]).
  { intros z Hz. rewrite firstn_app, firstn_length. replace (S k - Nat.min k (length z)) with 1 by lia.
    rewrite firstn_all2 by (rewrite firstn_length; lia). reflexivity. }
  split; [reflexivity|]. split; [reflexivity|]. cbn [fst snd]. split; [rewrite !F1; lia|]. split; [|exact H5].
  rewrite !F2 by lia. rewrite H4. reflexivity.
Qed.

Lemma sim_add_obj integ v : sim integ (fun st => Ok (add_obj v st)) (fun st => Ok (add_obj v st)).
Proof.
  intros [o [[k w] i]] [o' [[k' w'] i']] b' (H1 & H2 & H3 & H4 & H5) E. cbn in *. injection E as <-.
  eexists. split; [reflexivity|]. subst. split; [reflexivity|]. split; [reflexivity|]. split; [exact H3|]. split; [exact H4|exact H5].
Qed.

Lemma sim_add_ints integ v : sim integ (fun st => Ok (add_ints v st)) (fun st => Ok (add_ints v st)).
Proof.
  intros [o [[k w] i]] [o' [[k' w'] i']] b' (H1 & H2 & H3 & H4 & H5) E. cbn in *. injection E as <-.
  eexists. split; [reflexivity|]. subst. destruct H5 as [H5 H6]. split; [reflexivity|]. split; [reflexivity|]. split; [exact H3|]. split; [exact H4|]. cbn. split.
  - clear -H5. revert i' v H5. induction i as [|x i IH]; intros [|y i'] v H5; try discriminate; [reflexivity|]. destruct v; [reflexivity|].
    cbn in *. f_equal. apply IH. lia.
  - intros Hi. rewrite (H6 Hi). reflexivity.
Qed.

Lemma sim_rd {A} integ (l : list A) i (f g : A -> fg_state -> res fg_state) : (forall a, sim integ (f a) (g a)) ->
  sim integ (fun st => bind (rd l i) (fun a => f a st)) (fun st => bind (rd l i) (fun a => g a st)).
Proof. intros Hs a b b' Hn E. apply bind_ok in E. destruct E as (v & Ev & E). rewrite Ev. cbn [bind]. exact (Hs v a b b' Hn E). Qed.

Lemma sim_if integ (c : bool) f g f' g' : sim integ f g -> sim integ f' g' ->
  sim integ (fun st => if c then f st else f' st) (fun st => if c then g st else g' st).
Proof. destruct c; auto. Qed.

Lemma sim_add_rate integ ds a b c : sim integ (add_rate_penalty ds a b c) (add_rate_penalty ds a b c).
Proof.
  unfold add_rate_penalty. apply sim_if; [|apply sim_ok]. apply sim_rd. intros ra. apply sim_rd. intros rb. apply sim_add_obj.
Qed.
Lemma sim_add_value integ ds a b c : sim integ (add_value_penalty ds a b c) (add_value_penalty ds a b c).
Proof.
  unfold add_value_penalty. apply sim_if; [|apply sim_ok]. apply sim_rd. intros ra. apply sim_rd. intros rb. apply sim_add_obj.
Qed.
Lemma sim_control_rate integ sigma ds dl dr l r c : sim integ (put_control_rate sigma ds dl dr l r c) (put_control_rate sigma ds dl dr l r c).
Proof.
  unfold put_control_rate. apply sim_if; [|apply sim_ok]. do 4 (apply sim_rd; intros ?). apply sim_put.
Qed.

Lemma sim_element integ m sigma cs direct ds l r pen evs1 evs2 sl dl x1 g1 x2 g2 sr dr xr g3 g4 :
  rd evs1 l = Ok (MkEval sl dl x1 g1) -> rd evs2 l = Ok (MkEval sl dl x2 g2) ->
  rd evs1 r = Ok (MkEval sr dr xr g3) -> rd evs2 r = Ok (MkEval sr dr xr g4) ->
  sim integ (fg_element m sigma cs direct evs1 ds l r pen) (fg_element m sigma cs direct evs2 ds l r pen).
Proof.
  intros E1 E2 E3 E4. intros a b b' Hn. unfold fg_element. rewrite E1, E2, E3, E4. cbn [bind e_dstates].
  revert a b b' Hn.
  change (sim integ
    (fun st => bind (rd dl (st_time m)) (fun dtl => bind (rd dr (st_time m)) (fun dtr =>
      bind (if direct then Ok (add_obj (ds * ((1 - sigma) * dtl + sigma * dtr))%Q st)
            else for_each cs (add_rate_penalty ds pen r) (add_obj (ds * ((1 - sigma) * dtl + sigma * dtr))%Q st)) (fun st =>
      bind (for_each (differential_ids m) (put_differential sigma ds (MkEval sl dl x1 g1) (MkEval sr dr xr g3)) st) (fun st =>
      bind (for_each (algebraic_ids m) (put_algebraic dtr (MkEval sr dr xr g3)) st) (fun st =>
      bind (for_range 0 (n_extra m) (put_extra (MkEval sr dr xr g3)) st) (fun st =>
      if direct then Ok st else for_each cs (put_control_rate sigma ds dtl dtr l r) st)))))))
    (fun st => bind (rd dl (st_time m)) (fun dtl => bind (rd dr (st_time m)) (fun dtr =>
      bind (if direct then Ok (add_obj (ds * ((1 - sigma) * dtl + sigma * dtr))%Q st)
            else for_each cs (add_rate_penalty ds pen r) (add_obj (ds * ((1 - sigma) * dtl + sigma * dtr))%Q st)) (fun st =>
      bind (for_each (differential_ids m) (put_differential sigma ds (MkEval sl dl x2 g2) (MkEval sr dr xr g4)) st) (fun st =>
      bind (for_each (algebraic_ids m) (put_algebraic dtr (MkEval sr dr xr g4)) st) (fun st =>
      bind (for_range 0 (n_extra m) (put_extra (MkEval sr dr xr g4)) st) (fun st =>
      if direct then Ok st else for_each cs (put_control_rate sigma ds dtl dtr l r) st)))))))).
  apply (sim_rd integ dl (st_time m)
    (fun dtl st => bind (rd dr (st_time m)) (fun dtr => _)) (fun dtl st => bind (rd dr (st_time m)) (fun dtr => _))). intros dtl.
  apply (sim_rd integ dr (st_time m) (fun dtr st => _) (fun dtr st => _)). intros dtr.
  apply (sim_bind integ (fun st => if direct then Ok (add_obj _ st) else for_each cs (add_rate_penalty ds pen r) (add_obj _ st))).
  - destruct direct; [apply sim_add_obj|].
    apply (sim_bind integ (fun st => Ok (add_obj _ st)) (fun st => Ok (add_obj _ st))); [apply sim_add_obj|].
    apply sim_for_each. intros c _. apply sim_add_rate.
  - apply sim_bind.
    { apply sim_for_each. intros id _. unfold put_differential. cbn [e_states e_dstates]. do 4 (apply sim_rd; intros ?). apply sim_put. }
    apply sim_bind.
    { apply sim_for_each. intros id _. unfold put_algebraic. cbn [e_dstates]. apply sim_rd. intros ?. apply sim_put. }
    apply sim_bind.
    { unfold for_range. intros a b b' Hn E. rewrite loop_for_each in *. revert a b b' Hn E. apply sim_for_each.
      intros j _. unfold put_extra. cbn [e_extra]. apply sim_rd. intros ?. apply sim_put. }
    destruct direct; [apply sim_ok|]. apply sim_for_each. intros c _. apply sim_control_rate.
Qed.

Lemma sim_integral integ sigma ds a b evs1 evs2 e1 e2 f1 f2 :
  rd evs1 a = Ok e1 -> rd evs2 a = Ok e2 -> rd evs1 b = Ok f1 -> rd evs2 b = Ok f2 ->
  e_integrands e1 = e_integrands e2 -> e_integrands f1 = e_integrands f2 ->
  sim integ (integral_element sigma evs1 ds a b) (integral_element sigma evs2 ds a b).
Proof.
  intros E1 E2 E3 E4 I1 I2 st st' b' Hn. unfold integral_element. rewrite E1, E2, E3, E4. cbn [bind]. rewrite I1, I2.
  apply sim_add_ints. exact Hn.
Qed.

(** ** One evaluation *)
Lemma set_at_nth {A} (l : list A) i a : i < length l -> exists l', set_at l i a = Ok l' /\ length l' = length l /\
  forall k, nth_error l' k = if k =? i then Some a else nth_error l k.
Proof. apply set_at_ok. Qed.

Lemma nth_error_combine {A B} (l : list A) : forall (l' : list B) i a b,
  nth_error l i = Some a -> nth_error l' i = Some b -> nth_error (combine l l') i = Some (a, b).
Proof.
  induction l as [|x l IH]; intros [|y l'] [|i] a b E1 E2; cbn in *; try discriminate; [congruence|]. apply IH; assumption.
Qed.

Section Run.
Context {H : Type} (M : machine H) (m : car) (sigma : Q) (s : list Q) (cs : list control_variable) (ib : list integral_bound).
Context (direct closed : bool) (q0 u0 du0 : list Q) (n_states : nat).
Context (values : H -> list Q) (E : list Q -> list Q -> list Q -> Q -> measured) (np : nat) (inputs : list (list Q)).
Context (Ht : in_time m + 1 < n_inputs m) (F : facts direct m (length s) inputs cs) (Hcar : car_ok m).
Context (Hstart : closed = false -> length q0 = n_inputs m /\ length u0 = n_controls m /\ (direct = false -> length du0 = n_controls m)).
Context (Hmem : memoryless M values E np) (Hres : results_sized m ib E) (Hhyp : hypermeshes_cover s cs).
Notation n := (length s).
Notation nv := (n_variables direct closed m n cs).
Notation nc := (n_constraints direct closed m n cs ib).

(** What every history leaves in the members. *)
Definition good (p : list Q) (ob : object H) : Prop :=
  values (o_car ob) = p /\ same_shape (inputs, cs) (o_ins ob, o_cs ob) /\
  (forall sl, untouched m direct closed n cs sl -> get (o_ins ob, o_cs ob) sl = get (zeros m n cs) sl) /\
  length (o_states ob) = n /\ length (o_dstates ob) = n /\ length (o_integrands ob) = n /\ length (o_values ob) = length ib.

Lemma new_good h : good (values h) (new_object m s cs ib n_states h).
Proof.
  unfold good, new_object. cbn [o_car o_ins o_cs o_states o_dstates o_integrands o_values].
  split; [reflexivity|]. split; [exact (zeros_shape _ _ _ _ _ F)|]. split; [reflexivity|].
  rewrite !repeat_length, map_length. auto.
Qed.

Section At.
Context (p : list Q) (ins : list (list Q)) (fcs : list control_variable) (evs : list evaluation).
Context (Hsh : same_shape (inputs, cs) (ins, fcs)).
Context (Hevs : evaluate_all (car_with m E p) s fcs ins = Ok evs).

Lemma evs_length : length evs = n.
Proof. apply all_ok_spec in Hevs. destruct Hevs as [Hl _]. rewrite map_length, seq_length in Hl. exact Hl. Qed.

Lemma point_of i : i < n -> exists row si u dt, rd ins i = Ok row /\ rd s i = Ok si /\
  control_array_at_s fcs (controls_def m) i si = Ok u /\ rd (q_dstates (E p row u si)) (st_time m) = Ok dt /\
  nth_error evs i = Some (MkEval (q_states (E p row u si)) (q_dstates (E p row u si)) (q_extra (E p row u si))
                      (vscale dt (q_integral (E p row u si)))).
Proof.
  intros Hi. pose proof evs_length as Hl. destruct (nth_error evs i) as [e|] eqn:Ee.
  2:{ apply nth_error_None in Ee. lia. }
  pose proof Hevs as Hev. apply all_ok_spec in Hev. destruct Hev as [_ Hn]. specialize (Hn i e Ee).
  rewrite nth_error_map, (nth_error_nth' _ 0) in Hn by (rewrite seq_length; exact Hi).
  rewrite seq_nth in Hn by exact Hi. cbn [plus option_map] in Hn. injection Hn as Hn.
  unfold evaluate_point in Hn. apply bind_ok in Hn. destruct Hn as (row & Er & Hn). apply bind_ok in Hn. destruct Hn as (si & Es & Hn).
  apply bind_ok in Hn. destruct Hn as (u & Eu & Hn). cbv zeta in Hn. apply bind_ok in Hn. destruct Hn as (dt & Ed & Hn).
  injection Hn as <-. exists row, si, u, dt. auto.
Qed.

(** The members while the points are traversed: those before [i] are up to date. *)
Definition upto (integ : bool) (i : nat) (ob : object H) : Prop :=
  values (o_car ob) = p /\ o_ins ob = ins /\ o_cs ob = fcs /\
  length (o_states ob) = n /\ length (o_dstates ob) = n /\ length (o_integrands ob) = n /\ length (o_values ob) = length ib /\
  forall j e, j < i -> nth_error evs j = Some e ->
    nth_error (o_states ob) j = Some (e_states e) /\ nth_error (o_dstates ob) j = Some (e_dstates e) /\
    (integ = true -> nth_error (o_integrands ob) j = Some (e_integrands e)).

Lemma evaluate_car_is integ k ob i : upto integ k ob -> i < n -> exists h q dt,
  evaluate_car M m s ob i = Ok (with_car ob h, q) /\ values h = p /\ rd (q_dstates q) (st_time m) = Ok dt /\
  nth_error evs i = Some (MkEval (q_states q) (q_dstates q) (q_extra q) (vscale dt (q_integral q))).
Proof.
  intros (Hp & Hi1 & Hc1 & _) Hi. destruct (point_of i Hi) as (row & si & u & dt & E1 & E2 & E3 & E4 & E5).
  unfold evaluate_car. rewrite Hi1, E1. cbn [bind]. rewrite E2. cbn [bind]. rewrite Hc1, E3. cbn [bind].
  destruct Hmem as (Ha & Hb & _). destruct (advance M (o_car ob) row u si) as [h q] eqn:Ead.
  exists h, q, dt. pose proof (Ha (o_car ob) row u si) as G. pose proof (Hb (o_car ob) row u si) as G'.
  rewrite Ead in G, G'. cbn [fst snd] in G, G'. rewrite Hp in G, G'. subst q. auto.
Qed.

Lemma upto_car integ i ob h : upto integ i ob -> values h = p -> upto integ i (with_car ob h).
Proof. intros (H1 & H2) Hh. split; [exact Hh|exact H2]. Qed.

Lemma record_upto integ i ob q dt : upto integ i ob -> i < n ->
  rd (q_dstates q) (st_time m) = Ok dt ->
  nth_error evs i = Some (MkEval (q_states q) (q_dstates q) (q_extra q) (vscale dt (q_integral q))) ->
  exists ob', record_states i q ob = Ok ob' /\ values (o_car ob') = p /\ o_cs ob' = fcs /\ upto integ i ob' /\
    nth_error (o_states ob') i = Some (q_states q) /\ nth_error (o_dstates ob') i = Some (q_dstates q) /\
    o_values ob' = o_values ob /\
    exists ob2, record_integrand m i q ob' = Ok ob2 /\ upto integ (S i) ob2 /\ o_values ob2 = o_values ob /\
      nth_error (o_integrands ob2) i = Some (vscale dt (q_integral q)) /\
      o_states ob2 = o_states ob' /\ o_dstates ob2 = o_dstates ob' /\
      (integ = false -> upto integ (S i) ob').
Proof.
  intros (H1 & H2 & H3 & L1 & L2 & L3 & L4 & Hj) Hi Hdt He.
  destruct (set_at_ok (o_states ob) i (q_states q)) as (st & Est & Hst1 & Hst2); [lia|].
  destruct (set_at_ok (o_dstates ob) i (q_dstates q)) as (ds & Eds & Hds1 & Hds2); [lia|].
  unfold record_states. rewrite Est, Eds. cbn [bind]. eexists. split; [reflexivity|].
  cbn [o_car o_cs o_states o_dstates o_values]. split; [exact H1|]. split; [exact H3|].
  assert (Hst : forall j, j <> i -> nth_error st j = nth_error (o_states ob) j).
  { intros j Hne. rewrite Hst2. destruct (Nat.eqb_spec j i); [contradiction|reflexivity]. }
  assert (Hds : forall j, j <> i -> nth_error ds j = nth_error (o_dstates ob) j).
  { intros j Hne. rewrite Hds2. destruct (Nat.eqb_spec j i); [contradiction|reflexivity]. }
  split.
  { unfold upto. cbn. repeat (split; [assumption || lia|]). intros j e Hji Ej.
    rewrite Hst, Hds by lia. exact (Hj j e Hji Ej). }
  split; [rewrite Hst2, Nat.eqb_refl; reflexivity|]. split; [rewrite Hds2, Nat.eqb_refl; reflexivity|]. split; [reflexivity|].
  unfold record_integrand. cbn [o_dstates o_integrands o_car o_ins o_cs o_states o_values].
  assert (Erd : rd ds i = Ok (q_dstates q)) by (apply rd_inv; rewrite Hds2, Nat.eqb_refl; reflexivity).
  rewrite Erd. cbn [bind]. rewrite Hdt. cbn [bind].
  destruct (set_at_ok (o_integrands ob) i (vscale dt (q_integral q))) as (g & Eg & Hg1 & Hg2); [lia|]. rewrite Eg. cbn [bind].
  eexists. split; [reflexivity|].
  assert (Hall : forall j e, j < S i -> nth_error evs j = Some e ->
    nth_error st j = Some (e_states e) /\ nth_error ds j = Some (e_dstates e)).
  { intros j e Hji Ej. destruct (Nat.eq_dec j i) as [->|Hne].
    - rewrite He in Ej. injection Ej as <-. cbn. rewrite Hst2, Hds2, Nat.eqb_refl. auto.
    - rewrite Hst, Hds by exact Hne. destruct (Hj j e) as (A & B & _); [lia|exact Ej|auto]. }
  split.
  { unfold upto. cbn. repeat (split; [assumption || lia|]). intros j e Hji Ej. destruct (Hall j e Hji Ej) as [A B].
    split; [exact A|]. split; [exact B|]. intros Hint. rewrite Hg2. destruct (Nat.eqb_spec j i) as [->|Hne].
    - rewrite He in Ej. injection Ej as <-. reflexivity.
    - destruct (Hj j e) as (_ & _ & G); [lia|exact Ej|auto]. }
  cbn. split; [reflexivity|]. split; [rewrite Hg2, Nat.eqb_refl; reflexivity|]. split; [reflexivity|]. split; [reflexivity|].
  intros Hint. unfold upto. cbn. repeat (split; [assumption || lia|]). intros j e Hji Ej. destruct (Hall j e Hji Ej) as [A B].
  split; [exact A|]. split; [exact B|]. congruence.
Qed.

Lemma seen_at (ob : object H) q i a b g : nth_error (o_states ob) i = Some a -> nth_error (o_dstates ob) i = Some b ->
  nth_error (o_integrands ob) i = Some g -> rd (seen ob q) i = Ok (MkEval a b (q_extra q) g).
Proof.
  intros E1 E2 E3. apply rd_inv. unfold seen. rewrite nth_error_map.
  rewrite (nth_error_combine _ _ i (a, b) g (nth_error_combine _ _ i a b E1 E2) E3). reflexivity.
Qed.

Lemma some_at {A} (l : list A) i : i < length l -> exists a, nth_error l i = Some a.
Proof. intros Hi. destruct (nth_error l i) eqn:Ei; [eauto|]. apply nth_error_None in Ei. lia. Qed.

(** One turn of the loop against one turn of the loop of M_Laptime. *)
Definition pure_turn (integ : bool) (i : nat) (st : fg_state) : res fg_state :=
  bind (rd s i) (fun si => bind (rd s (i - 1)) (fun sp =>
  bind (fg_element (car_with m E p) sigma fcs direct evs (si - sp)%Q (i - 1) i (i - i) st) (fun st =>
  if integ then integral_element sigma evs (si - sp)%Q (i - 1) i st else Ok st))).

Lemma turn_follows integ i ob st1 st2 st2' : 1 <= i < n -> upto integ i ob -> near integ st1 st2 ->
  pure_turn integ i st2 = Ok st2' ->
  exists ob' st1', point_turn M m sigma s direct integ i (ob, st1) = Ok (ob', st1') /\ upto integ (S i) ob' /\ near integ st1' st2' /\
    o_values ob' = o_values ob.
Proof.
  intros Hi Hup Hn Ep. pose proof Hup as (_ & _ & _ & L1 & L2 & L3 & _ & Hj).
  destruct (evaluate_car_is integ i ob i Hup) as (h & q & dt & E1 & E2 & E3 & E4); [lia|].
  destruct (record_upto integ i (with_car ob h) q dt (upto_car _ _ _ _ Hup E2)) as
    (ob1 & R1 & R2 & R3 & R4 & R5 & R6 & R7 & ob2 & S1 & S2 & S3 & S4 & S5 & S6 & S7); [lia|exact E3|exact E4|].
  unfold point_turn. rewrite E1. cbn [bind]. rewrite R1. cbn [bind].
  unfold pure_turn in Ep. apply bind_ok in Ep. destruct Ep as (si & Esi & Ep). apply bind_ok in Ep. destruct Ep as (sp & Esp & Ep).
  apply bind_ok in Ep. destruct Ep as (st2a & Eel & Ep). rewrite Esi, Esp. cbn [bind]. rewrite R3.
  assert (Hil : i < length evs) by (rewrite evs_length; lia). destruct (some_at evs (i - 1)) as [ep Eep]; [lia|].
  pose proof R4 as (_ & _ & _ & L1' & L2' & L3' & _ & Hj'). destruct (Hj' (i - 1) ep) as (P1 & P2 & P3); [lia|exact Eep|].
  destruct (some_at (o_integrands ob1) (i - 1)) as [gp Egp]; [lia|]. destruct (some_at (o_integrands ob1) i) as [gi Egi]; [lia|].
  assert (Eep' : rd evs (i - 1) = Ok (MkEval (e_states ep) (e_dstates ep) (e_extra ep) (e_integrands ep))).
  { apply rd_inv. rewrite Eep. destruct ep; reflexivity. }
  destruct (sim_element integ (car_with m E p) sigma fcs direct (si - sp)%Q (i - 1) i (i - i) (seen ob1 q) evs
              (e_states ep) (e_dstates ep) (q_extra q) gp (e_extra ep) (e_integrands ep)
              (q_states q) (q_dstates q) (q_extra q) gi (vscale dt (q_integral q))
              (seen_at _ _ _ _ _ _ P1 P2 Egp) Eep'
              (seen_at _ _ _ _ _ _ R5 R6 Egi) (proj2 (rd_inv _ _ _) E4) st1 st2 st2a Hn Eel) as (st1a & Ea & Na).
  change (fg_element m sigma fcs direct (seen ob1 q) (si - sp)%Q (i - 1) i (i - i) st1)
    with (fg_element (car_with m E p) sigma fcs direct (seen ob1 q) (si - sp)%Q (i - 1) i (i - i) st1).
  rewrite Ea. cbn [bind]. destruct integ eqn:Hint.
  - rewrite S1. cbn [bind].
    assert (Q1 : nth_error (o_integrands ob2) (i - 1) = Some (e_integrands ep)).
    { destruct S2 as (_ & _ & _ & _ & _ & _ & _ & Hj2). destruct (Hj2 (i - 1) ep) as (_ & _ & G); [lia|exact Eep|auto]. }
    rewrite <- S5 in P1, R5. rewrite <- S6 in P2, R6.
    destruct (sim_integral true sigma (si - sp)%Q (i - 1) i (seen ob2 q) evs _ _ _ _
       (seen_at _ q _ _ _ _ P1 P2 Q1) (proj2 (rd_inv evs (i - 1) ep) Eep) (seen_at _ q _ _ _ _ R5 R6 S4)
       (proj2 (rd_inv _ _ _) E4) eq_refl eq_refl st1a st2a st2' Na Ep) as (st1b & Eb & Nb).
    rewrite Eb. cbn [bind]. exists ob2, st1b. split; [reflexivity|]. split; [exact S2|]. split; [exact Nb|]. exact S3.
  - injection Ep as <-. exists ob1, st1a. split; [reflexivity|]. split; [apply S7; reflexivity|]. split; [exact Na|]. exact R7.
Qed.

Lemma loop_follows integ k : forall i ob st1 st2 st2', 1 <= i -> i + k <= n -> upto integ i ob -> near integ st1 st2 ->
  loop k i (pure_turn integ) st2 = Ok st2' ->
  exists ob' st1', loop k i (point_turn M m sigma s direct integ) (ob, st1) = Ok (ob', st1') /\ upto integ (i + k) ob' /\
    near integ st1' st2' /\ o_values ob' = o_values ob.
Proof.
  induction k as [|k IH]; intros i ob st1 st2 st2' Hi Hk Hup Hn El; cbn [loop] in *.
  - injection El as <-. exists ob, st1. rewrite Nat.add_0_r. auto.
  - apply bind_ok in El. destruct El as (st2a & E1 & El).
    destruct (turn_follows integ i ob st1 st2 st2a) as (ob1 & st1a & G1 & G2 & G3 & G4); [lia|assumption..|].
    destruct (IH (S i) ob1 st1a st2a st2') as (ob2 & st1b & G5 & G6 & G7 & G8); [lia|lia|assumption..|].
    exists ob2, st1b. rewrite G1. cbn [bind]. split; [exact G5|]. replace (i + S k) with (S i + k) by lia.
    split; [exact G6|]. split; [exact G7|]. congruence.
Qed.
(** The closing element. *)
Definition pure_close (integ : bool) (st : fg_state) : res fg_state :=
  bind (rd s (n - 1)) (fun sl =>
  let ds := (track_length m - sl)%Q in
  bind (fg_element (car_with m E p) sigma fcs direct evs ds (n - 1) 0 (n - 1) st) (fun st =>
  bind (if direct then for_each fcs (add_value_penalty ds (n - 1) 0) st else Ok st) (fun st =>
  if integ then integral_element sigma evs ds 0 (n - 1) st else Ok st))).

Lemma close_follows integ ob st1 st2 st2' : 2 <= n -> upto integ n ob -> near integ st1 st2 ->
  pure_close integ st2 = Ok st2' ->
  exists ob' st1', closing_turn M m sigma s direct integ (ob, st1) = Ok (ob', st1') /\ upto integ n ob' /\ near integ st1' st2' /\
    o_values ob' = o_values ob.
Proof.
  intros Hn2 Hup Hn Ep.
  destruct (evaluate_car_is integ n ob 0 Hup) as (h & q & dt & E1 & E2 & E3 & E4); [lia|].
  pose proof (upto_car _ _ _ _ Hup E2) as Hup'. pose proof Hup' as (_ & _ & R3 & L1 & L2 & L3 & _ & Hj).
  unfold closing_turn, pure_close in *. apply bind_ok in Ep. destruct Ep as (sl & Esl & Ep). cbv zeta in *. rewrite Esl. cbn [bind].
  rewrite E1. cbn [bind]. apply bind_ok in Ep. destruct Ep as (st2a & Eel & Ep). rewrite R3.
  destruct (some_at evs (n - 1)) as [ep Eep]; [rewrite evs_length; lia|].
  destruct (Hj (n - 1) ep) as (P1 & P2 & P3); [lia|exact Eep|]. destruct (Hj 0 _ ltac:(lia) E4) as (R5 & R6 & R7). cbn [e_states e_dstates e_integrands] in R5, R6, R7.
  destruct (some_at (o_integrands (with_car ob h)) (n - 1)) as [gp Egp]; [lia|].
  destruct (some_at (o_integrands (with_car ob h)) 0) as [gi Egi]; [lia|].
  assert (Eep' : rd evs (n - 1) = Ok (MkEval (e_states ep) (e_dstates ep) (e_extra ep) (e_integrands ep))).
  { apply rd_inv. rewrite Eep. destruct ep; reflexivity. }
  destruct (sim_element integ (car_with m E p) sigma fcs direct (track_length m - sl)%Q (n - 1) 0 (n - 1) (seen (with_car ob h) q) evs
              (e_states ep) (e_dstates ep) (q_extra q) gp (e_extra ep) (e_integrands ep)
              (q_states q) (q_dstates q) (q_extra q) gi (vscale dt (q_integral q))
              (seen_at _ _ _ _ _ _ P1 P2 Egp) Eep'
              (seen_at _ _ _ _ _ _ R5 R6 Egi) (proj2 (rd_inv _ _ _) E4) st1 st2 st2a Hn Eel) as (st1a & Ea & Na).
  change (fg_element m sigma fcs direct (seen (with_car ob h) q) (track_length m - sl)%Q (n - 1) 0 (n - 1) st1)
    with (fg_element (car_with m E p) sigma fcs direct (seen (with_car ob h) q) (track_length m - sl)%Q (n - 1) 0 (n - 1) st1).
  rewrite Ea. cbn [bind]. apply bind_ok in Ep. destruct Ep as (st2b & Epen & Ep).
  assert (Hpen : sim integ (fun st => if direct then for_each fcs (add_value_penalty (track_length m - sl)%Q (n - 1) 0) st else Ok st)
                           (fun st => if direct then for_each fcs (add_value_penalty (track_length m - sl)%Q (n - 1) 0) st else Ok st)).
  { apply sim_if; [|apply sim_ok]. apply sim_for_each. intros. apply sim_add_value. }
  destruct (Hpen st1a st2a st2b Na Epen) as (st1b & Eb & Nb). cbv beta in Eb. rewrite Eb. cbn [bind].
  destruct integ eqn:Hint.
  - specialize (P3 eq_refl). specialize (R7 eq_refl).
    destruct (sim_integral true sigma (track_length m - sl)%Q 0 (n - 1) (seen (with_car ob h) q) evs _ _ _ _
       (seen_at _ q _ _ _ _ R5 R6 R7) (proj2 (rd_inv _ _ _) E4) (seen_at _ q _ _ _ _ P1 P2 P3)
       Eep' eq_refl eq_refl st1b st2b st2' Nb Ep) as (st1c & Ec & Nc).
    rewrite Ec. cbn [bind]. exists (with_car ob h), st1c. auto.
  - injection Ep as <-. exists (with_car ob h), st1b. auto.
Qed.

Lemma sim_for_range integ a b f : (forall i, sim integ (f i) (f i)) -> sim integ (for_range a b f) (for_range a b f).
Proof.
  intros Hf. unfold for_range. generalize (b - a). intros k. revert a. induction k as [|k IH]; intros a; cbn [loop].
  - apply sim_ok.
  - apply sim_bind; [apply Hf|apply IH].
Qed.

(** What follows the loading of the vector. *)
Definition after_load (integ : bool) (ob : object H) (gs : list Q) : res (object H * list Q) :=
    bind (evaluate_car M m s ob 0) (fun oq => let '(ob, q) := oq in
    bind (record_states 0 q ob) (fun ob =>
    bind (if integ then record_integrand m 0 q ob else Ok ob) (fun ob =>
    let st0 := (0%Q, ((0, gs), if integ then map (fun _ => 0%Q) (o_values ob) else o_values ob)) in
    bind (for_range 1 (length s) (point_turn M m sigma s direct integ) (ob, st0)) (fun w => let '(ob, st) := w in
    bind (if direct
          then for_each (o_cs ob) (fun c => for_range 1 (length s) (fun i st =>
                 bind (rd s i) (fun si => bind (rd s (i - 1)) (fun sp => add_value_penalty (si - sp)%Q (i - 1) i c st)))) st
          else Ok st) (fun st =>
    bind (if closed then closing_turn M m sigma s direct integ (ob, st) else Ok (ob, st)) (fun w => let '(ob, st) := w in
    bind (if integ then for_each (restricted_quantities ib (snd (snd st))) put_fg st else Ok st) (fun st =>
    Ok (with_values ob (snd (snd st)), fst st :: snd (fst (snd st)))))))))).

Lemma after_is integ ob gs obj k cons ints : 2 <= n -> upto integ 0 ob -> length gs = n_constraints direct closed m n fcs ib ->
  length ints = length ib ->
  fg_compute (car_with m E p) sigma s fcs ib direct closed integ evs = Ok (obj, ((k, cons), ints)) -> k = length cons ->
  exists ob', after_load integ ob gs = Ok (ob', obj :: cons) /\ upto integ n (with_values ob' (map (fun _ => 0%Q) ib)) /\
    length (o_values ob') = length ib /\ (integ = true -> o_values ob' = ints).
Proof.
  intros Hn2 Hup Hgs Hints Efg Hk.
  destruct (evaluate_car_is integ 0 ob 0 Hup) as (h & q & dt & E1 & E2 & E3 & E4); [lia|].
  destruct (record_upto integ 0 (with_car ob h) q dt (upto_car _ _ _ _ Hup E2)) as
    (ob1 & R1 & R2 & R3 & R4 & R5 & R6 & R7 & ob2 & S1 & S2 & S3 & S4 & S5 & S6 & S7); [lia|exact E3|exact E4|].
  unfold after_load. rewrite E1. cbn [bind]. rewrite R1. cbn [bind].
  assert (Hfront : exists ob3, (if integ then record_integrand m 0 q ob1 else Ok ob1) = Ok ob3 /\ upto integ 1 ob3 /\ o_values ob3 = o_values ob).
  { destruct integ; [exists ob2|exists ob1]; auto. }
  destruct Hfront as (ob3 & F1 & F2 & F3). rewrite F1. cbn [bind]. cbv zeta.
  pose proof Hup as (_ & _ & _ & _ & _ & _ & Hov & _).
  assert (Hzero : map (fun _ : Q => 0%Q) (o_values ob3) = map (fun _ => 0%Q) ib).
  { rewrite F3. clear -Hov. revert Hov. generalize (o_values ob). intros l. revert l. induction ib as [|b ib' IH]; intros [|v l] Hl; cbn in *; try discriminate; [reflexivity|].
    f_equal. apply IH. lia. }
  rewrite Hzero. unfold fg_compute in Efg. cbv zeta in Efg. apply bind_ok in Efg. destruct Efg as (p1 & G1 & Efg).
  apply bind_ok in Efg. destruct Efg as (p2 & G2 & Efg). apply bind_ok in Efg. destruct Efg as (p3 & G3 & Efg).
  set (st0 := (0%Q, ((0, gs), if integ then map (fun _ => 0%Q) ib else o_values ob3)) : fg_state).
  assert (N0 : near integ st0 (0%Q, ((0, repeat 0%Q (n_constraints direct closed (car_with m E p) n fcs ib)), map (fun _ => 0%Q) ib))).
  { unfold near, st0. cbn [fst snd firstn]. rewrite repeat_length, Hgs. do 2 (split; [reflexivity|]). split; [reflexivity|]. split; [reflexivity|].
    destruct integ; [auto|]. rewrite map_length, F3. split; [exact Hov|discriminate]. }
  destruct (loop_follows integ (n - 1) 1 ob3 st0 _ p1 (le_n 1) ltac:(lia) F2 N0 G1) as (ob4 & st4 & E5 & Hup4 & N4 & V4).
  match goal with |- context [bind ?I _] => assert (EI : I = Ok (ob4, st4)) by exact E5; rewrite EI; clear EI end.
  cbn [bind]. replace (1 + (n - 1)) with n in Hup4 by lia. pose proof Hup4 as (_ & _ & C4 & _). rewrite C4.
  assert (Hpen : sim integ (fun st => if direct then for_each fcs (fun c => for_range 1 n (fun i st =>
                 bind (rd s i) (fun si => bind (rd s (i - 1)) (fun sp => add_value_penalty (si - sp)%Q (i - 1) i c st)))) st else Ok st)
               (fun st => if direct then for_each fcs (fun c => for_range 1 n (fun i st =>
                 bind (rd s i) (fun si => bind (rd s (i - 1)) (fun sp => add_value_penalty (si - sp)%Q (i - 1) i c st)))) st else Ok st)).
  { apply sim_if; [|apply sim_ok]. apply sim_for_each. intros c _. apply sim_for_range. intros i. do 2 (apply sim_rd; intros ?). apply sim_add_value. }
  destruct (Hpen st4 p1 p2 N4 G2) as (st5 & E6 & N5). cbv beta in E6. rewrite E6. cbn [bind].
  assert (Hcl : exists ob6 st6, (if closed then closing_turn M m sigma s direct integ (ob4, st5) else Ok (ob4, st5)) = Ok (ob6, st6) /\
     upto integ n ob6 /\ near integ st6 p3 /\ o_values ob6 = o_values ob4).
  { revert G3. case closed; intros G3; [exact (close_follows integ ob4 st5 p2 p3 Hn2 Hup4 N5 G3)|]. injection G3 as <-. exists ob4, st5. auto. }
  destruct Hcl as (ob6 & st6 & E7 & Hup6 & N6 & V6). rewrite E7. cbn [bind].
  assert (Hr : exists st7, (if integ then for_each (restricted_quantities ib (snd (snd st6))) put_fg st6 else Ok st6) = Ok st7 /\
     near integ st7 (obj, ((k, cons), ints))).
  { destruct integ.
    - pose proof N6 as (_ & _ & _ & _ & _ & Hv). rewrite (Hv eq_refl).
      destruct (sim_for_each true (restricted_quantities ib (snd (snd p3))) put_fg put_fg (fun a _ => sim_put true a) st6 p3 _ N6 Efg) as (st7 & E8 & N8).
      exists st7. auto.
    - injection Efg as <-. exists st6. auto. }
  destruct Hr as (st7 & E8 & N8). rewrite E8. cbn [bind]. eexists. split.
  { f_equal. f_equal. pose proof N8 as (A1 & A2 & A3 & A4 & _ & _). cbn [fst snd] in *. f_equal; [exact A1|].
    rewrite A2, Hk in A4. rewrite firstn_all in A4. rewrite <- A3, firstn_all in A4. exact A4. }
  split.
  { pose proof Hup6 as (B1 & B2 & B3 & B4 & B5 & B6 & B7 & B8). unfold upto. cbn. rewrite map_length. repeat (split; [assumption || reflexivity|]). exact B8. }
  pose proof N8 as (_ & _ & _ & _ & A5 & A6). cbn [fst snd with_values o_values] in *. split; [congruence|exact A6].
Qed.

End At.

Lemma load_vector_is x (ob : object H) st : loaded m x direct closed q0 u0 du0 n (o_ins ob, o_cs ob) = Ok st ->
  load_vector m s direct closed q0 u0 du0 x ob = Ok (with_config ob (snd st)).
Proof.
  intros El. unfold loaded in El. unfold load_vector. apply bind_ok in El. destruct El as (cf & E1 & El).
  apply bind_ok in El. destruct El as (st1 & E2 & El).
  match goal with |- context [bind ?I _] => match I with if _ then _ else _ => assert (EI : I = Ok cf) by exact E1; rewrite EI; clear EI end end.
  cbn [bind].
  match goal with |- context [bind ?I _] => assert (EI : I = Ok st1) by exact E2; rewrite EI; clear EI end. cbn [bind].
  match goal with |- context [bind ?I _] => assert (EI : I = Ok st) by exact El; rewrite EI; clear EI end. reflexivity.
Qed.

Lemma count_full_shape fcs : length cs = length fcs ->
  (forall j c c', nth_error cs j = Some c -> nth_error fcs j = Some c' -> control_shape c c') -> count_full fcs = count_full cs.
Proof.
  clear. revert fcs. induction cs as [|c l IH]; intros [|c' l'] Hl Hj; try discriminate; [reflexivity|].
  pose proof (Hj 0 c c' eq_refl eq_refl) as (K & _). cbn. rewrite <- K. rewrite (IH l').
  - reflexivity.
  - cbn in Hl. lia.
  - intros j. exact (Hj (S j)).
Qed.

Lemma evaluate_all_found p ins fcs : same_shape (inputs, cs) (ins, fcs) -> exists evs, evaluate_all (car_with m E p) s fcs ins = Ok evs.
Proof.
  intros Hsh. pose proof (facts_shape _ _ _ _ _ _ _ F Hsh) as F'. pose proof Hsh as (_ & Hlc & _ & Hcc). cbn [fst snd] in *.
  apply all_ok_all. intros r Hr. apply in_map_iff in Hr. destruct Hr as (i & <- & Hi). apply in_seq in Hi.
  unfold evaluate_point.
  destruct (rd_ok ins i) as (row & _ & Er); [rewrite (f_inputs _ _ _ _ _ F'); lia|]. rewrite Er. cbn [bind].
  destruct (rd_ok s i) as (si & _ & Es); [lia|]. rewrite Es. cbn [bind].
  destruct (control_array_found fcs fcs (controls_def (car_with m E p)) n i si) as [u Eu].
  - apply all_checked_again. apply (f_checked _ _ _ _ _ F').
  - intros c Hc. apply In_nth_error in Hc. destruct Hc as [j Ej]. apply (f_values _ _ _ _ _ F' j c Ej).
  - intros c Hc K. apply In_nth_error in Hc. destruct Hc as [j Ej].
    destruct (nth_error_transport _ _ _ _ (eq_sym Hlc) Ej) as [c0 Ej0]. destruct (Hcc j c0 c Ej0 Ej) as (K0 & Hm & _).
    destruct (Hhyp c0) as (A & B & C); [eapply nth_error_In; exact Ej0|congruence|].
    rewrite <- Hm. split; [exact A|]. split; [exact B|]. apply C. apply rd_inv in Es. eapply nth_error_In; exact Es.
  - lia.
  - rewrite Eu. cbn [bind]. cbv zeta.
    destruct (Hres p row u si) as (Hst & _). destruct (Hst (st_time m) (or_introl eq_refl)) as [_ Hd].
    destruct (rd_ok (q_dstates (E p row u si)) (st_time m) Hd) as (dt & _ & Ed). cbn [eval_dstates car_with st_time]. rewrite Ed. cbn [bind]. eauto.
Qed.

Theorem compute_is integ p ob x fgv : integ = true \/ n_restricted ib = 0 -> good p ob -> length x = nv -> length fgv = S nc ->
  exists ins fcs evs obj cons ints,
    unpack m x direct closed q0 u0 du0 n cs = Ok (nv, (ins, fcs)) /\ same_shape (inputs, cs) (ins, fcs) /\
    evaluate_all (car_with m E p) s fcs ins = Ok evs /\
    fg_compute (car_with m E p) sigma s fcs ib direct closed integ evs = Ok (obj, ((nc, cons), ints)) /\ length cons = nc /\
    exists ob', compute M m sigma s ib direct closed q0 u0 du0 integ ob x fgv = Ok (ob', obj :: cons) /\ good p ob' /\
      o_ins ob' = ins /\ o_cs ob' = fcs /\ (integ = true -> o_values ob' = ints).
Proof.
  intros Hint (G1 & G2 & G3 & G4 & G5 & G6 & G7) Hx Hfgv.
  destruct (load_same m direct closed n inputs cs x q0 u0 du0 (o_ins ob, o_cs ob) Ht F G2 G3 Hx Hstart) as ([ins fcs] & E1 & E2 & E3 & E4).
  destruct (evaluate_all_found p ins fcs E3) as [evs Hevs].
  pose proof (facts_shape _ _ _ _ _ _ _ F E3) as F'. pose proof E3 as (_ & Hlc & _ & Hcc). cbn [fst snd] in *.
  assert (Hcar' : car_ok (car_with m E p)) by exact Hcar.
  assert (F'' : facts direct (car_with m E p) n ins fcs) by (destruct F'; constructor; assumption).
  assert (Hok : evaluations_ok (car_with m E p) ib s evs).
  { apply (evaluate_all_ok _ _ _ fcs ins evs); [| | |exact Hevs].
    - intros row u si id Hid. apply (Hres p row u si). exact Hid.
    - intros row u si. apply (Hres p row u si).
    - intros row u si. apply (Hres p row u si). }
  assert (Hnc : n_constraints direct closed m n fcs ib = nc).
  { unfold n_constraints. rewrite (count_full_shape fcs Hlc Hcc). reflexivity. }
  destruct (fg_total (car_with m E p) sigma s fcs ib direct ins evs F'' Hok Hcar' closed integ Hint) as (obj & ints & Efg & _ & Hli & _).
  change (n_constraints direct closed (car_with m E p) n fcs ib) with (n_constraints direct closed m n fcs ib) in Efg. rewrite Hnc in Efg.
  match type of Efg with _ = Ok (_, ((_, ?c), _)) => set (cons := c) in *; assert (Hcl : length cons = nc) end.
  { unfold cons. rewrite app_length.
    pose proof (values_length (car_with m E p) sigma s fcs ib direct ins evs F'' Hcar' closed) as Hv.
    change (n_constraints direct closed (car_with m E p) n fcs ib) with (n_constraints direct closed m n fcs ib) in Hv. rewrite Hnc in Hv.
    rewrite restricted_length by exact Hli. exact Hv. }
  destruct fgv as [|f0 gs]; [discriminate|]. cbn in Hfgv.
  destruct (after_is p ins fcs evs Hevs integ (with_config ob (ins, fcs)) gs obj nc cons ints (f_n _ _ _ _ _ F)) as (ob' & A1 & A2 & A3 & A4).
  - unfold upto. cbn. repeat (split; [assumption || reflexivity|]). intros j e Hj. lia.
  - rewrite Hnc. lia.
  - exact Hli.
  - exact Efg.
  - symmetry; exact Hcl.
  - exists ins, fcs, evs, obj, cons, ints. split; [exact E2|]. split; [exact E3|]. split; [exact Hevs|]. split; [exact Efg|]. split; [exact Hcl|].
    exists ob'. unfold compute. rewrite (load_vector_is x ob _ E1). cbn [bind snd].
    split; [exact A1|]. pose proof A2 as (B1 & B2 & B3 & B4 & B5 & B6 & _). cbn in B1, B2, B3, B4, B5, B6.
    split; [|auto]. unfold good. rewrite B2, B3. auto 10.
Qed.
End Run.
