(** Round trips of the NLP vector. *)
From Coq Require Import QArith Bool Arith Lia List.
From Verif Require Import M_Controls S_Controls L_Controls M_Laptime S_Laptime L_Pack L_Pack2 L_Pack3.
Import ListNotations.
Local Open Scope nat_scope.

Lemma checked_again c : checked c -> check_control c = Ok c.
Proof.
  unfold checked, check_control. destruct c as [k h v r d]; destruct k; cbn.
  - intros (-> & -> & -> & ->). reflexivity.
  - intros (-> & -> & -> & ->). reflexivity.
  - intros (-> & -> & ->). rewrite Nat.eqb_refl. reflexivity.
  - intros (-> & H & Hd). cbn. apply Qlt_bool_false in Hd. rewrite Hd.
    destruct H as [-> | ->].
    + rewrite andb_false_r. reflexivity.
    + rewrite Nat.eqb_refl. reflexivity.
Qed.

Lemma all_checked_again cs : (forall j c, nth_error cs j = Some c -> checked c) -> check_controls cs = Ok cs.
Proof.
  intros H. apply all_ok_intro; [rewrite map_length; reflexivity|]. intros i c E. rewrite nth_error_map, E. cbn.
  rewrite (checked_again c (H i c E)). reflexivity.
Qed.

Lemma facts_check_sizes direct m n ins cs : facts direct m n ins cs -> check_sizes direct n ins cs = Ok tt.
Proof.
  intros F. unfold check_sizes. rewrite (f_inputs _ _ _ _ _ F), Nat.eqb_refl. cbn [negb].
  assert (H : forall c, In c cs -> check_size_control direct n c = Ok tt).
  { intros c Hin. apply In_nth_error in Hin. destruct Hin as (j & E). unfold check_size_control.
    destruct (kind_eqb (c_kind c) FULL_MESH) eqn:K; [|reflexivity]. apply kind_eqb_spec in K.
    rewrite (f_values _ _ _ _ _ F j c E K), Nat.eqb_refl. cbn [negb].
    rewrite (f_rates _ _ _ _ _ F j c E K). destruct direct; rewrite Nat.eqb_refl; reflexivity. }
  clear F. induction cs as [|c cs IH]; [reflexivity|]. cbn. rewrite H by (left; reflexivity). cbn.
  apply IH. intros c' Hin. apply H. right; exact Hin.
Qed.

Lemma facts_guess direct m s ins cs : facts direct m (length s) ins cs -> guess_ok direct m s ins cs.
Proof.
  intros F. split; [exists cs; apply all_checked_again; apply (f_checked _ _ _ _ _ F)|].
  split; [apply (facts_check_sizes _ _ _ _ _ F)|]. split; [apply (f_n _ _ _ _ _ F)|].
  split; [apply (f_cs _ _ _ _ _ F)|]. intros r Hin. apply In_nth_error in Hin. destruct Hin as (i & E).
  eapply (f_rows _ _ _ _ _ F); eauto.
Qed.

Definition zeros (m : car) (n : nat) (cs : list control_variable) : config :=
  (repeat (repeat 0%Q (n_inputs m)) n, map clear_control cs).

Lemma nth_error_repeat' {A} (a : A) n i x : nth_error (repeat a n) i = Some x -> x = a /\ i < n.
Proof.
  intros E. split.
  - apply nth_error_In in E. apply repeat_spec in E. exact E.
  - rewrite <- (repeat_length a n). apply nth_error_Some. congruence.
Qed.

Lemma zeros_shape direct m n ins cs : facts direct m n ins cs -> same_shape (ins, cs) (zeros m n cs).
Proof.
  intros F. split; [cbn; rewrite repeat_length; apply (f_inputs _ _ _ _ _ F)|].
  split; [cbn; rewrite map_length; reflexivity|]. split; cbn.
  - intros i r r' E E'. apply nth_error_repeat' in E'. destruct E' as [-> _]. rewrite repeat_length.
    eapply (f_rows _ _ _ _ _ F); eauto.
  - intros j c c' E E'. rewrite nth_error_map, E in E'. cbn in E'. injection E' as <-.
    unfold control_shape, clear_control. cbn. rewrite !map_length. repeat split.
Qed.

Lemma zeros_get m n cs sl v : get (zeros m n cs) sl = Some v -> v = 0%Q.
Proof.
  destruct sl as [i j|j i|j i]; cbn [get zeros fst snd].
  - destruct (nth_error _ i) as [r|] eqn:E; [|discriminate]. apply nth_error_repeat' in E. destruct E as [-> _].
    intros E. apply nth_error_repeat' in E. tauto.
  - rewrite nth_error_map. destruct (nth_error cs j) as [c|]; [|discriminate]. cbn [option_map clear_control c_values set_rates set_values].
    rewrite nth_error_map. destruct (nth_error (c_values c) i); cbn; congruence.
  - rewrite nth_error_map. destruct (nth_error cs j) as [c|]; [|discriminate]. cbn [option_map clear_control c_rates set_rates set_values].
    rewrite nth_error_map. destruct (nth_error (c_rates c) i); cbn; congruence.
Qed.

(** What unpacking does, whatever the vector. *)
Lemma unpack_spec m direct closed n ins cs x q0 u0 du0 :
  in_time m + 1 < n_inputs m -> facts direct m n ins cs ->
  length x = n_variables direct closed m n cs ->
  (closed = false -> length q0 = n_inputs m /\ length u0 = n_controls m /\ (direct = false -> length du0 = n_controls m)) ->
  exists cf, unpack m x direct closed q0 u0 du0 n cs = Ok (n_variables direct closed m n cs, cf) /\
    same_shape (ins, cs) cf /\
    (forall p sl, nth_error (slots m direct closed n cs) p = Some sl -> get cf sl = nth_error x p) /\
    (forall i, offset closed <= i < n -> get cf (SIn i (in_time m)) = Some 0%Q) /\
    (closed = false ->
       (forall j, get cf (SIn 0 j) = nth_error q0 j) /\
       (forall j c, nth_error cs j = Some c -> c_kind c = FULL_MESH ->
         get cf (SVal j 0) = nth_error u0 j /\ (direct = false -> get cf (SRate j 0) = nth_error du0 j))).
Proof.
  intros Ht F Hx Hopen. pose proof (zeros_shape _ _ _ _ _ F) as Hz. pose proof (f_cs _ _ _ _ _ F) as Hl.
  assert (Fz : facts direct m n (fst (zeros m n cs)) (snd (zeros m n cs))) by (eapply facts_shape; [exact F|exact Hz]).
  assert (Hstart : exists cf0, (if closed then Ok (zeros m n cs) else start_point m direct q0 u0 du0 (zeros m n cs)) = Ok cf0 /\
    same_shape (ins, cs) cf0 /\
    (forall i, offset closed <= i < n -> get cf0 (SIn i (in_time m)) = Some 0%Q) /\
    (closed = false ->
       (forall j, get cf0 (SIn 0 j) = nth_error q0 j) /\
       (forall j c, nth_error cs j = Some c -> c_kind c = FULL_MESH ->
         get cf0 (SVal j 0) = nth_error u0 j /\ (direct = false -> get cf0 (SRate j 0) = nth_error du0 j)))).
  { assert (Hz0 : forall i, i < n -> get (zeros m n cs) (SIn i (in_time m)) = Some 0%Q).
    { intros i Hi. destruct (get (zeros m n cs) (SIn i (in_time m))) as [v|] eqn:E.
      - apply zeros_get in E. congruence.
      - exfalso. cbn in E. destruct (nth_error (repeat (repeat 0%Q (n_inputs m)) n) i) as [r|] eqn:Er.
        + apply nth_error_repeat' in Er. destruct Er as [-> _]. apply nth_error_None in E. rewrite repeat_length in E. lia.
        + apply nth_error_None in Er. rewrite repeat_length in Er. lia. }
    destruct closed.
    - exists (zeros m n cs). split; [reflexivity|]. split; [exact Hz|]. split; [|discriminate].
      intros i Hi. apply Hz0. lia.
    - destruct (Hopen eq_refl) as (Hq & Hu & Hdu).
      destruct (start_point_spec m direct n _ _ Fz q0 u0 du0 Hq Hu Hdu) as (cf & E & Hs & Hin & Hc & Ho).
      change (fst (zeros m n cs), snd (zeros m n cs)) with (zeros m n cs) in *.
      exists cf. split; [exact E|]. split; [eapply same_shape_trans; eauto|]. split.
      + intros i Hi. cbn in Hi. rewrite Ho; [apply Hz0; lia| |].
        * intros j Eq. injection Eq as -> _. lia.
        * intros; split; discriminate.
      + intros _. split; [exact Hin|]. intros j c Ej K.
        apply (Hc j (clear_control c)); [|exact K]. cbn. rewrite nth_error_map, Ej. reflexivity. }
  destruct Hstart as (cf0 & E0 & Hs0 & Ht0 & Hop0).
  unfold unpack. cbv zeta.
  match goal with |- context [bind ?I _] => match I with if _ then _ else _ => assert (EI : I = Ok cf0) by exact E0; rewrite EI; clear EI end end.
  cbn [bind].
  pose proof (unpack_loads m x direct ins cs Hl closed n cf0 Ht Hs0) as EU.
  pose proof (slots_length m direct closed n ins cs Ht F) as Hsl.
  destruct (loads_ok x (slots m direct closed n cs) 0 cf0) as (cf & E & Hs & Hno & Hyes).
  - apply slots_NoDup; assumption.
  - intros sl Hin. apply in_slots in Hin; [|assumption|assumption].
    destruct (slots_valid _ _ _ _ _ _ _ F Hin) as [v Ev]. eapply get_some_shape; eauto.
  - lia.
  - exists cf. cbn [plus] in E. rewrite Hsl in E. split; [exact (eq_trans EU E)|].
    split; [eapply same_shape_trans; eauto|]. split; [intros p sl Ep; rewrite (Hyes p sl Ep); reflexivity|].
    assert (Hnin : forall sl, ~ unknown m direct closed n cs sl -> get cf sl = get cf0 sl).
    { intros sl Hu. apply Hno. intros Hin. apply Hu. apply in_slots in Hin; assumption. }
    split.
    + intros i Hi. rewrite Hnin; [auto|]. cbn. intros (_ & _ & H). congruence.
    + intros Hc. destruct (Hop0 Hc) as [H1 H2]. subst closed. split.
      * intros j. rewrite Hnin; [apply H1|]. cbn. lia.
      * intros j c Ej K. destruct (H2 j c Ej K) as [H3 H4]. split.
        -- rewrite Hnin; [exact H3|]. cbn. intros (c' & Ec' & [(_ & ?)|(K' & _)]); [lia|].
           rewrite Ej in Ec'. injection Ec' as <-. destruct K'; congruence.
        -- intros Hd. rewrite Hnin; [auto|]. cbn. lia.
Qed.

Lemma get_none_shape cf cf' sl : same_shape cf cf' -> get cf sl = None -> get cf' sl = None.
Proof.
  intros Hs E. destruct (get cf' sl) eqn:E'; [|reflexivity].
  destruct (get_some_shape _ _ _ _ (same_shape_sym _ _ Hs) E'). congruence.
Qed.

Lemma list_ext {A} (l l' : list A) : (forall i, nth_error l i = nth_error l' i) -> l = l'.
Proof.
  revert l'. induction l as [|a l IH]; intros [|b l'] H.
  - reflexivity.
  - specialize (H 0). discriminate.
  - specialize (H 0). discriminate.
  - f_equal; [specialize (H 0); cbn in H; congruence|]. apply IH. intros i. apply (H (S i)).
Qed.

Lemma controls_ext ins ins' cs cs' : same_shape (ins, cs) (ins', cs') ->
  (forall j i, get (ins, cs) (SVal j i) = get (ins', cs') (SVal j i)) ->
  (forall j i, get (ins, cs) (SRate j i) = get (ins', cs') (SRate j i)) -> cs = cs'.
Proof.
  intros (_ & H2 & _ & H4) Hv Hr. cbn in *. apply list_ext. intros j.
  destruct (nth_error cs j) as [c|] eqn:E.
  - destruct (nth_error_transport _ _ _ _ H2 E) as [c' E']. rewrite E'. f_equal.
    destruct (H4 j c c' E E') as (K & Hm & Hd & _).
    assert (Ev : c_values c = c_values c'). { apply list_ext. intros i. specialize (Hv j i). rewrite E, E' in Hv. exact Hv. }
    assert (Er : c_rates c = c_rates c'). { apply list_ext. intros i. specialize (Hr j i). rewrite E, E' in Hr. exact Hr. }
    destruct c, c'; cbn in *; congruence.
  - destruct (nth_error cs' j) eqn:E'; [|reflexivity].
    destruct (nth_error_transport _ _ _ _ (eq_sym H2) E'). congruence.
Qed.

Lemma get_at2 ins cs i j v : get (ins, cs) (SIn i j) = Some v -> at2 ins i j = v.
Proof.
  cbn. destruct (nth_error ins i) as [r|] eqn:E; [|discriminate]. intros E'. unfold at2.
  rewrite (nth_error_nth _ _ _ E). apply nth_error_nth. exact E'.
Qed.

Lemma getd_some cf sl v : get cf sl = Some v -> getd cf sl = v.
Proof. unfold getd. intros ->. reflexivity. Qed.

Lemma rates_array cs i r : all_ok (map (fun c => rate_at c i) cs) = Ok r -> length r = length cs /\
  forall j c, nth_error cs j = Some c -> c_kind c = FULL_MESH -> nth_error r j = nth_error (c_rates c) i.
Proof.
  intros H. destruct (all_ok_inv _ _ H) as [Hl Hi]. rewrite map_length in Hl. split; [exact Hl|].
  intros j c E K. destruct (nth_error_transport _ _ _ _ (eq_sym Hl) E) as [w Ew].
  specialize (Hi j w Ew). rewrite nth_error_map, E in Hi. cbn in Hi. injection Hi as Hi.
  unfold rate_at in Hi. rewrite K in Hi. apply rd_inv in Hi. congruence.
Qed.

Lemma start_of_spec direct m s ins cs q0 u0 du0 : length (controls_def m) = n_controls m ->
  facts direct m (length s) ins cs -> start_of direct m s ins cs q0 u0 du0 ->
  length q0 = n_inputs m /\ length u0 = n_controls m /\ (direct = false -> length du0 = n_controls m) /\
  (forall j, nth_error q0 j = get (ins, cs) (SIn 0 j)) /\
  (forall j c, nth_error cs j = Some c -> c_kind c = FULL_MESH ->
     nth_error u0 j = get (ins, cs) (SVal j 0) /\ (direct = false -> nth_error du0 j = get (ins, cs) (SRate j 0))).
Proof.
  intros Hdef F [Hq Hu]. pose proof (f_n _ _ _ _ _ F) as Hn. pose proof (f_inputs _ _ _ _ _ F) as Hi.
  pose proof (f_cs _ _ _ _ _ F) as Hl.
  destruct (nth_error ins 0) as [r|] eqn:Er; [|apply nth_error_None in Er; lia].
  assert (Eq : q0 = r) by (rewrite Hq; apply nth_error_nth; exact Er).
  assert (Hu' : control_array_at_s cs (controls_def m) 0 (nth 0 s 0%Q) = Ok u0 /\
    (direct = false -> all_ok (map (fun c => rate_at c 0) cs) = Ok du0)).
  { destruct direct; [split; [exact Hu|discriminate]|]. unfold control_array_and_derivative_at_s in Hu.
    apply bind_ok in Hu. destruct Hu as (a & E1 & Hu). apply bind_ok in Hu. destruct Hu as (b & E2 & Hu).
    injection Hu as <- <-. auto. }
  destruct Hu' as [Hu1 Hu2]. destruct (control_array_value _ _ _ _ _ Hu1) as [Hlu Hcv]; [congruence|].
  split; [rewrite Eq; eapply (f_rows _ _ _ _ _ F); eauto|]. split; [congruence|].
  split; [intros Hd; destruct (rates_array _ _ _ (Hu2 Hd)); congruence|]. split.
  - intros j. cbn [get fst]. rewrite Er, Eq. reflexivity.
  - intros j c Ec K. cbn [get snd]. rewrite Ec. split.
    + assert (Hj : j < length (controls_def m)). { rewrite Hdef, <- Hl. apply nth_error_Some. congruence. }
      destruct (rd_ok (controls_def m) j Hj) as (d & Ed & _).
      destruct (Hcv j c d Ec Ed) as (w & Ew & Hw). unfold control_at_s in Hw. rewrite K in Hw.
      apply rd_inv in Hw. congruence.
    + intros Hd. destruct (rates_array _ _ _ (Hu2 Hd)) as [_ H]. apply H; assumption.
Qed.

Lemma nth_error_map_slot m o s cf sls p sl : nth_error sls p = Some sl ->
  nth_error (map fst (map (entry_of m o s cf) sls)) p = Some (getd cf sl).
Proof. intros E. rewrite map_map, nth_error_map, E. reflexivity. Qed.

(** Packing, then unpacking. *)
Lemma pack_unpack direct m o s inputs cs closed es q0 u0 du0 :
  sizes_ok m o -> guess_ok direct m s inputs cs ->
  (direct = false -> no_constant cs /\ rates_bounded m cs) ->
  (closed = false -> start_of direct m s inputs cs q0 u0 du0) ->
  pack m o s inputs cs direct closed = Ok es ->
  exists ins', unpack m (map fst es) direct closed q0 u0 du0 (length s) cs = Ok (n_variables direct closed m (length s) cs, (ins', cs)) /\
    length ins' = length s /\ (forall r, In r ins' -> length r = n_inputs m) /\
    forall i j, i < length s -> j < n_inputs m ->
      at2 ins' i j = if (offset closed <=? i) && (j =? in_time m) then 0%Q else at2 inputs i j.
Proof.
  intros Hsz G Hder Hopen Hp. pose proof (guess_facts _ _ _ _ _ G) as F. pose proof Hsz as (Ht & _ & _ & _ & _ & Hdef).
  rewrite (pack_slots m o s inputs cs direct Hsz F) in Hp; [|intros Hd; apply (Hder Hd)|intros Hd; apply (Hder Hd)].
  injection Hp as <-. set (sls := slots m direct closed (length s) cs).
  pose proof (slots_length m direct closed (length s) inputs cs Ht F) as Hsl.
  assert (Hst : closed = false -> length q0 = n_inputs m /\ length u0 = n_controls m /\ (direct = false -> length du0 = n_controls m)).
  { intros Hc. destruct (start_of_spec _ _ _ _ _ _ _ _ Hdef F (Hopen Hc)) as (A & B & C & _). auto. }
  destruct (unpack_spec m direct closed (length s) inputs cs (map fst (map (entry_of m o s (inputs, cs)) sls)) q0 u0 du0 Ht F)
    as ((ins' & cs') & E & Hs & Hsl' & Htime & Hop); [rewrite !map_length; exact Hsl|exact Hst|].
  assert (Hknown : forall sl, unknown m direct closed (length s) cs sl -> get (ins', cs') sl = get (inputs, cs) sl).
  { intros sl Hu. destruct (slots_valid _ _ _ _ _ _ _ F Hu) as [v Ev].
    apply in_slots in Hu; [|exact Ht|apply (f_cs _ _ _ _ _ F)]. apply In_nth_error in Hu. destruct Hu as (p & Ep).
    rewrite (Hsl' p sl Ep), (nth_error_map_slot m o s (inputs, cs) sls p sl Ep), Ev. unfold getd. rewrite Ev. reflexivity. }
  assert (Hnone : forall sl, get (inputs, cs) sl = None -> get (ins', cs') sl = None) by (intros sl; apply get_none_shape; exact Hs).
  assert (Hcs : cs' = cs).
  { symmetry. apply (controls_ext inputs ins'); [exact Hs| |].
    - intros j i. destruct (get (inputs, cs) (SVal j i)) as [v|] eqn:Ev; [|symmetry; apply Hnone; exact Ev].
      assert (Hcn : exists c, nth_error cs j = Some c /\ i < length (c_values c)).
      { cbn in Ev. destruct (nth_error cs j) as [c|]; [|discriminate]. exists c. split; [reflexivity|].
        apply nth_error_Some. congruence. }
      destruct Hcn as (c & Ec & Hi).
      destruct (kind_eqb (c_kind c) FULL_MESH) eqn:K.
      + apply kind_eqb_spec in K. rewrite (f_values _ _ _ _ _ F j c Ec K) in Hi.
        destruct (Nat.lt_ge_cases i (offset closed)) as [Ho|Ho].
        * destruct closed; cbn in Ho; [lia|]. assert (i = 0) by lia. subst i.
          destruct (Hop eq_refl) as [_ H2]. destruct (H2 j c Ec K) as [H3 _].
          destruct (start_of_spec _ _ _ _ _ _ _ _ Hdef F (Hopen eq_refl)) as (_ & _ & _ & _ & H4).
          destruct (H4 j c Ec K) as [H5 _]. congruence.
        * rewrite Hknown; [congruence|]. cbn. exists c. split; [exact Ec|]. left. split; [exact K|lia].
      + rewrite Hknown; [congruence|]. cbn. exists c. split; [exact Ec|]. right. split; [|exact Hi].
        pose proof (f_checked _ _ _ _ _ F j c Ec) as Hch. unfold checked in Hch.
        destruct (c_kind c); auto; [|discriminate]. destruct Hch as (_ & Hnil & _). rewrite Hnil in Hi. cbn in Hi. lia.
    - intros j i. destruct (get (inputs, cs) (SRate j i)) as [v|] eqn:Ev; [|symmetry; apply Hnone; exact Ev].
      assert (Hcn : exists c, nth_error cs j = Some c /\ i < length (c_rates c)).
      { cbn in Ev. destruct (nth_error cs j) as [c|]; [|discriminate]. exists c. split; [reflexivity|].
        apply nth_error_Some. congruence. }
      destruct Hcn as (c & Ec & Hi).
      pose proof (f_checked _ _ _ _ _ F j c Ec) as Hch. unfold checked in Hch.
      destruct (c_kind c) eqn:K;
        try (exfalso; assert (Hnil : c_rates c = []) by tauto; rewrite Hnil in Hi; cbn in Hi; lia).
      rewrite (f_rates _ _ _ _ _ F j c Ec K) in Hi.
      assert (Hd : direct = false) by (destruct direct; [lia|reflexivity]). rewrite Hd in Hi.
      destruct (Nat.lt_ge_cases i (offset closed)) as [Ho|Ho].
      + destruct closed; cbn in Ho; [lia|]. assert (i = 0) by lia. subst i.
        destruct (Hop eq_refl) as [_ H2]. destruct (H2 j c Ec K) as [_ H3].
        destruct (start_of_spec _ _ _ _ _ _ _ _ Hdef F (Hopen eq_refl)) as (_ & _ & _ & _ & H4).
        destruct (H4 j c Ec K) as [_ H5]. rewrite <- Ev, <- (H5 Hd), <- (H3 Hd). reflexivity.
      + rewrite Hknown; [congruence|]. cbn. split; [exact Hd|]. split; [lia|]. exists c. auto. }
  subst cs'. pose proof (facts_shape _ _ _ _ _ _ _ F Hs) as F'.
  exists ins'. split; [exact E|]. split; [apply (f_inputs _ _ _ _ _ F')|].
  split; [intros r Hin; apply In_nth_error in Hin; destruct Hin as (i & Ei); eapply (f_rows _ _ _ _ _ F'); eauto|].
  intros i j Hi Hj.
  assert (Hget : forall v, get (ins', cs) (SIn i j) = Some v -> at2 ins' i j = v) by (intros v; apply get_at2).
  destruct (Nat.leb_spec (offset closed) i) as [Ho|Ho]; cbn [andb].
  - destruct (Nat.eqb_spec j (in_time m)) as [->|Hne].
    + apply Hget. apply Htime. lia.
    + assert (Hu : unknown m direct closed (length s) cs (SIn i j)) by (cbn; lia).
      destruct (slots_valid _ _ _ _ _ _ _ F Hu) as [v Ev]. rewrite (get_at2 _ _ _ _ _ Ev).
      apply Hget. rewrite (Hknown _ Hu). exact Ev.
  - destruct closed; cbn in Ho; [lia|]. assert (i = 0) by lia. subst i.
    destruct (Hop eq_refl) as [H1 _].
    destruct (start_of_spec _ _ _ _ _ _ _ _ Hdef F (Hopen eq_refl)) as (Hlq & _ & _ & H4 & _).
    assert (Hv : exists v, nth_error q0 j = Some v) by (destruct (rd_ok q0 j) as (v & Ev & _); [lia|eauto]).
    destruct Hv as [v Ev]. rewrite (Hget v) by (rewrite H1; exact Ev). symmetry. apply (get_at2 inputs cs).
    rewrite <- H4. exact Ev.
Qed.

(** Unpacking any vector, then packing. *)
Lemma map_entries_fst m o s cf sls x : length x = length sls ->
  (forall p sl, nth_error sls p = Some sl -> get cf sl = nth_error x p) ->
  map fst (map (entry_of m o s cf) sls) = x.
Proof.
  intros Hl H. apply list_ext. intros p. destruct (nth_error sls p) as [sl|] eqn:E.
  - rewrite (nth_error_map_slot _ _ _ _ _ _ _ E). pose proof (H p sl E) as Hg.
    assert (Hp : p < length x) by (rewrite Hl; apply nth_error_Some; congruence).
    destruct (nth_error x p) eqn:Ex; [|apply nth_error_None in Ex; lia]. unfold getd. rewrite Hg. reflexivity.
  - rewrite map_map, nth_error_map, E. cbn. symmetry. apply nth_error_None. apply nth_error_None in E. lia.
Qed.

Lemma unpack_pack direct m o s inputs cs closed x q0 u0 du0 :
  sizes_ok m o -> guess_ok direct m s inputs cs ->
  (direct = false -> no_constant cs /\ rates_bounded m cs) ->
  (closed = false -> start_of direct m s inputs cs q0 u0 du0) ->
  length x = n_variables direct closed m (length s) cs ->
  exists ins' cs', unpack m x direct closed q0 u0 du0 (length s) cs = Ok (n_variables direct closed m (length s) cs, (ins', cs')) /\
    guess_ok direct m s ins' cs' /\
    (forall j c c', nth_error cs j = Some c -> nth_error cs' j = Some c' ->
        c_kind c' = c_kind c /\ c_hypermesh c' = c_hypermesh c /\ c_dissipation c' = c_dissipation c) /\
    exists es es', pack m o s inputs cs direct closed = Ok es /\ pack m o s ins' cs' direct closed = Ok es' /\
      map fst es' = x /\ map snd es' = map snd es.
Proof.
  intros Hsz G Hder Hopen Hx. pose proof (guess_facts _ _ _ _ _ G) as F. pose proof Hsz as (Ht & _ & _ & _ & _ & Hdef).
  pose proof (slots_length m direct closed (length s) inputs cs Ht F) as Hsl.
  assert (Hst : closed = false -> length q0 = n_inputs m /\ length u0 = n_controls m /\ (direct = false -> length du0 = n_controls m)).
  { intros Hc. destruct (start_of_spec _ _ _ _ _ _ _ _ Hdef F (Hopen Hc)) as (A & B & C & _). auto. }
  destruct (unpack_spec m direct closed (length s) inputs cs x q0 u0 du0 Ht F Hx Hst) as ((ins' & cs') & E & Hs & Hsl' & _).
  pose proof (facts_shape _ _ _ _ _ _ _ F Hs) as F'.
  exists ins', cs'. split; [exact E|]. split; [apply facts_guess; exact F'|].
  pose proof Hs as (_ & H2 & _ & H4). cbn in H2, H4. split.
  { intros j c c' Ej Ej'. destruct (H4 j c c' Ej Ej') as (? & ? & ? & _). auto. }
  assert (Hder' : direct = false -> no_constant cs' /\ rates_bounded m cs').
  { intros Hd. destruct (Hder Hd) as [Hn Hr]. split.
    - intros c' Hin. apply In_nth_error in Hin. destruct Hin as (j & Ej').
      destruct (nth_error_transport _ _ _ _ (eq_sym H2) Ej') as [c Ej]. destruct (H4 j c c' Ej Ej') as (K & _).
      rewrite <- K. apply Hn. eapply nth_error_In; eauto.
    - intros j c' Ej' K'. destruct (nth_error_transport _ _ _ _ (eq_sym H2) Ej') as [c Ej].
      destruct (H4 j c c' Ej Ej') as (K & _). apply (Hr j c Ej). congruence. }
  exists (map (entry_of m o s (inputs, cs)) (slots m direct closed (length s) cs)),
         (map (entry_of m o s (ins', cs')) (slots m direct closed (length s) cs)).
  split; [apply pack_slots; [exact Hsz|exact F|intros Hd; apply (Hder Hd)|intros Hd; apply (Hder Hd)]|].
  split; [rewrite (slots_shape m direct closed (length s) _ _ _ _ Hs);
          apply pack_slots; [exact Hsz|exact F'|intros Hd; apply (Hder' Hd)|intros Hd; apply (Hder' Hd)]|].
  split; [apply map_entries_fst; [lia|exact Hsl']|]. rewrite !map_map. reflexivity.
Qed.

(** Bounds. *)
Lemma pack_bounds direct m o s inputs cs closed es :
  sizes_ok m o -> guess_ok direct m s inputs cs ->
  (direct = false -> no_constant cs /\ rates_bounded m cs) ->
  pack m o s inputs cs direct closed = Ok es ->
  within es (map fst es) <-> respects_bounds m o s direct closed inputs cs.
Proof.
  intros Hsz G Hder Hp. pose proof (guess_facts _ _ _ _ _ G) as F. pose proof Hsz as (Ht & _).
  pose proof (f_cs _ _ _ _ _ F) as Hl.
  rewrite (pack_slots m o s inputs cs direct Hsz F) in Hp; [|intros Hd; apply (Hder Hd)|intros Hd; apply (Hder Hd)].
  injection Hp as <-. set (sls := slots m direct closed (length s) cs).
  assert (Hw : within (map (entry_of m o s (inputs, cs)) sls) (map fst (map (entry_of m o s (inputs, cs)) sls)) <->
    forall sl, unknown m direct closed (length s) cs sl -> between (slot_bounds m o s sl) (getd (inputs, cs) sl)).
  { unfold within. rewrite !map_length. split.
    - intros (_ & H) sl Hu. apply in_slots in Hu; [|exact Ht|exact Hl].
      apply In_nth_error in Hu. destruct Hu as (p & Ep).
      assert (Hlt : p < length sls) by (apply nth_error_Some; unfold sls; congruence).
      specialize (H p Hlt).
      rewrite (nth_error_nth _ p _ (nth_error_map_slot m o s (inputs, cs) sls p sl Ep)) in H.
      rewrite (nth_error_nth (map (entry_of m o s (inputs, cs)) sls) p (x := entry_of m o s (inputs, cs) sl)) in H;
        [exact H|]. rewrite nth_error_map. unfold sls. rewrite Ep. reflexivity.
    - intros H. split; [reflexivity|]. intros p Hlt.
      destruct (rd_ok sls p Hlt) as (sl & Ep & _).
      rewrite (nth_error_nth _ p _ (nth_error_map_slot m o s (inputs, cs) sls p sl Ep)).
      rewrite (nth_error_nth (map (entry_of m o s (inputs, cs)) sls) p (x := entry_of m o s (inputs, cs) sl)).
      + apply H. apply in_slots; [exact Ht|exact Hl|]. eapply nth_error_In; eauto.
      + rewrite nth_error_map, Ep. reflexivity. }
  rewrite Hw. clear Hw. unfold respects_bounds. split.
  - intros H. split; [|split].
    + intros i j Hi Hj Hne Hne2. assert (Hu : unknown m direct closed (length s) cs (SIn i j)) by (cbn; lia).
      specialize (H _ Hu). destruct (slots_valid _ _ _ _ _ _ _ F Hu) as [v Ev].
      rewrite (getd_some _ _ _ Ev) in H. rewrite (get_at2 _ _ _ _ _ Ev). unfold slot_bounds in H.
      destruct (Nat.eqb_spec j (in_time m + 1)); [contradiction|exact H].
    + intros i Hi. assert (Hu : unknown m direct closed (length s) cs (SIn i (in_time m + 1))) by (cbn; lia).
      specialize (H _ Hu). destruct (slots_valid _ _ _ _ _ _ _ F Hu) as [v Ev].
      rewrite (getd_some _ _ _ Ev) in H. rewrite (get_at2 _ _ _ _ _ Ev). unfold slot_bounds in H.
      rewrite Nat.eqb_refl in H. exact H.
    + intros j c Ec. split.
      * intros i Hi Ho.
        assert (Hu : unknown m direct closed (length s) cs (SVal j i)).
        { cbn. exists c. split; [exact Ec|]. pose proof (f_checked _ _ _ _ _ F j c Ec) as Hch. unfold checked in Hch.
          destruct (c_kind c) eqn:K; auto.
          - destruct Hch as (_ & Hnil & _). rewrite Hnil in Hi. cbn in Hi. lia.
          - left. split; [reflexivity|]. rewrite (f_values _ _ _ _ _ F j c Ec K) in Hi. specialize (Ho eq_refl). lia. }
        specialize (H _ Hu). destruct (slots_valid _ _ _ _ _ _ _ F Hu) as [v Ev].
        rewrite (getd_some _ _ _ Ev) in H. cbn in Ev. rewrite Ec in Ev. unfold value.
        rewrite (nth_error_nth _ _ _ Ev). exact H.
      * intros Hd K i Hi. assert (Hu : unknown m direct closed (length s) cs (SRate j i)) by (cbn; eauto).
        specialize (H _ Hu). destruct (slots_valid _ _ _ _ _ _ _ F Hu) as [v Ev].
        rewrite (getd_some _ _ _ Ev) in H. cbn in Ev. rewrite Ec in Ev. unfold rate.
        rewrite (nth_error_nth _ _ _ Ev). exact H.
  - intros (H1 & H2 & H3) sl Hu. destruct (slots_valid _ _ _ _ _ _ _ F Hu) as [v Ev].
    rewrite (getd_some _ _ _ Ev). destruct sl as [i j|j i|j i].
    + destruct Hu as (Hi & Hj & Hne). rewrite <- (get_at2 _ _ _ _ _ Ev). unfold slot_bounds.
      destruct (Nat.eqb_spec j (in_time m + 1)) as [->|Hne2]; [apply H2; exact Hi|apply H1; assumption].
    + destruct Hu as (c & Ec & Hk). destruct (H3 j c Ec) as [H4 _]. cbn in Ev. rewrite Ec in Ev.
      assert (Hi : i < length (c_values c)) by (apply nth_error_Some; congruence).
      specialize (H4 i Hi). unfold value in H4. rewrite (nth_error_nth _ _ _ Ev) in H4. apply H4.
      intros K. destruct Hk as [(_ & ?)|([K'|K'] & _)]; [lia|congruence|congruence].
    + destruct Hu as (Hd & Hi & c & Ec & K). destruct (H3 j c Ec) as [_ H4]. cbn in Ev. rewrite Ec in Ev.
      specialize (H4 Hd K i Hi). unfold rate in H4. rewrite (nth_error_nth _ _ _ Ev) in H4. exact H4.
Qed.

Lemma pack_ok direct m o s inputs cs closed :
  sizes_ok m o -> guess_ok direct m s inputs cs ->
  (direct = false -> no_constant cs /\ rates_bounded m cs) ->
  exists es, pack m o s inputs cs direct closed = Ok es /\ length es = n_variables direct closed m (length s) cs.
Proof.
  intros Hsz G Hder. pose proof (guess_facts _ _ _ _ _ G) as F. pose proof Hsz as (Ht & _).
  exists (map (entry_of m o s (inputs, cs)) (slots m direct closed (length s) cs)). split.
  - apply pack_slots; [exact Hsz|exact F|intros Hd; apply (Hder Hd)|intros Hd; apply (Hder Hd)].
  - rewrite map_length. eapply slots_length; eauto.
Qed.

Lemma pack_constant m o s inputs cs closed :
  sizes_ok m o -> guess_ok false m s inputs cs -> rates_bounded m cs -> ~ no_constant cs ->
  pack m o s inputs cs false closed = UB.
Proof.
  intros Hsz G Hr Hc. apply (pack_constant_ub m o s inputs cs false Hsz (guess_facts _ _ _ _ _ G) (fun _ => Hr) closed eq_refl Hc).
Qed.
