(** Lemmas about the lap as a file. *)
From Coq Require Import String QArith Bool Arith Lia List.
From Verif Require Import M_Controls M_Laptime M_Track M_Lapfile S_Lapfile L_Track.
Import ListNotations.
Local Open Scope string_scope.

Lemma write_all_ok {A} (v : list A) : v <> [] -> write_all v = Ok v.
Proof. intro H. unfold write_all. apply write_vector_ok; [|reflexivity]. destruct v; [congruence|simpl; lia]. Qed.

Lemma all_ok_map' A B (f : A -> res B) (g : A -> B) l : (forall a, In a l -> f a = Ok (g a)) -> all_ok (map f l) = Ok (map g l).
Proof.
  induction l as [|a l IH]; intro H; [reflexivity|]. cbn [map all_ok]. rewrite H by (left; reflexivity). cbn [bind].
  rewrite IH by (intros; apply H; now right). reflexivity.
Qed.

Lemma field_in fs name v : NoDup (map fst fs) -> In (name, v) fs -> field fs name = Ok v.
Proof.
  induction fs as [|[k w] fs IH]; intros ND H; [destruct H|]. cbn [map fst] in ND. inversion ND as [|? ? N1 N2]; subst.
  cbn [field]. destruct H as [E|H].
  - injection E as -> ->. now rewrite String.eqb_refl.
  - destruct (String.eqb_spec k name) as [->|]; [|now apply IH]. exfalso. apply N1. apply (in_map fst) in H. exact H.
Qed.

Lemma node_in us u e : NoDup (map fst us) -> In (u, e) us -> node us u = Ok e.
Proof.
  unfold node. induction us as [|[k w] us IH]; intros ND H; [destruct H|]. cbn [map fst] in ND. inversion ND as [|? ? N1 N2]; subst.
  cbn [find fst]. destruct H as [E|H].
  - injection E as -> ->. now rewrite String.eqb_refl.
  - destruct (String.eqb_spec k u) as [->|]; [|now apply IH]. exfalso. apply N1. apply (in_map fst) in H. exact H.
Qed.

(** The columns of the states. *)
Definition column (inputs : list (list Q)) (i : nat) : list Q := map (fun row => nth i row 0%Q) inputs.

Lemma write_input_ok inputs n i q : inputs <> [] -> Forall (fun row => length row = n) inputs -> (i < n)%nat ->
  write_input inputs (i, q) = Ok (q, column inputs i).
Proof.
  intros Hne HF Hi. unfold write_input. cbn [fst snd].
  rewrite (all_ok_map' _ _ _ (fun row => nth i row 0%Q)). 2:{ intros row Hr. apply rd_nth. rewrite Forall_forall in HF. now rewrite (HF row Hr). }
  cbn [bind]. fold (column inputs i). rewrite write_all_ok; [reflexivity|]. unfold column. destruct inputs; [congruence|discriminate].
Qed.

Lemma transpose_columns inputs n : Forall (fun row => length row = n) inputs ->
  map (fun j => map (fun c => nth j c 0%Q) (map (column inputs) (seq 0 n))) (seq 0 (length inputs)) = inputs.
Proof.
  intro HF. apply nth_ext with (d := []) (d' := []); [now rewrite map_length, seq_length|].
  intros j Hj. rewrite map_length, seq_length in Hj.
  rewrite (nth_indep _ [] (map (fun c => nth 0 c 0%Q) (map (column inputs) (seq 0 n)))) by (now rewrite map_length, seq_length).
  rewrite (map_nth (fun j => map (fun c => nth j c 0%Q) (map (column inputs) (seq 0 n)))). rewrite seq_nth by assumption. cbn [Nat.add].
  assert (HL : length (nth j inputs []) = n) by (rewrite Forall_forall in HF; apply HF, nth_In; assumption).
  rewrite map_map. apply nth_ext with (d := 0%Q) (d' := 0%Q); [now rewrite map_length, seq_length|].
  intros i Hi. rewrite map_length, seq_length in Hi.
  rewrite (nth_indep _ 0%Q (nth j (column inputs 0) 0%Q)) by (now rewrite map_length, seq_length).
  rewrite (map_nth (fun i => nth j (column inputs i) 0%Q)). rewrite seq_nth by assumption. cbn [Nat.add].
  unfold column. rewrite (nth_indep _ 0%Q (nth i [] 0%Q)) by (now rewrite map_length).
  now rewrite (map_nth (fun row => nth i row 0%Q)).
Qed.

(** One control. *)
Definition node_of (direct : bool) (c : control_variable) : control_node :=
  match c_kind c with
  | DONT_OPTIMIZE => MkNode "dont optimize" [("values", [])]
  | CONSTANT => MkNode "constant" [("values", c_values c)]
  | HYPERMESH => MkNode "hypermesh" [("values", c_values c); ("hypermesh", c_hypermesh c)]
  | FULL_MESH => MkNode "full-mesh" (if direct then [("values", c_values c)] else [("values", c_values c); ("derivatives", c_rates c)])
  end.
Lemma nonempty_length {A} (v : list A) : (1 <= length v)%nat -> v <> [].
Proof. destruct v; simpl; [lia|discriminate]. Qed.
Lemma write_control_ok direct n c : (1 <= n)%nat -> complete_control direct n c -> write_control direct c = Ok (node_of direct c).
Proof.
  intros Hn H. unfold complete_control in H. unfold write_control, node_of. destruct (c_kind c).
  - reflexivity.
  - destruct H as (_ & H & _). destruct (c_values c) as [|v [|? ?]]; try discriminate. reflexivity.
  - destruct H as (H1 & H2 & _). rewrite !write_all_ok; [reflexivity|assumption|].
    apply nonempty_length. rewrite H2. destruct (c_hypermesh c); [congruence|simpl; lia].
  - destruct H as (_ & H2 & H3). rewrite write_all_ok by (apply nonempty_length; lia). cbn [bind].
    destruct direct; [reflexivity|]. rewrite write_all_ok by (apply nonempty_length; lia). reflexivity.
Qed.
Definition reloaded_control (c : control_variable) : control_variable := set_dissipation c 0.
Lemma read_control_ok direct n us u c : node us u = Ok (node_of direct c) -> complete_control direct n c ->
  read_control_node direct us u = Ok (reloaded_control c).
Proof.
  intros Hu H. unfold read_control_node. rewrite Hu. cbn [bind]. unfold complete_control in H. unfold node_of, reloaded_control, set_dissipation.
  destruct c as [k h v r d]. cbn [c_kind c_hypermesh c_values c_rates c_dissipation] in *. destruct k; cbn in *.
  - destruct H as (-> & -> & ->). destruct direct; reflexivity.
  - destruct H as (-> & _ & ->). destruct direct; reflexivity.
  - destruct H as (_ & _ & ->). destruct direct; reflexivity.
  - destruct H as (-> & _ & Hr). destruct direct; cbn in *; [destruct r; [reflexivity|discriminate]|reflexivity].
Qed.
Lemma check_reloaded direct n c : complete_control direct n c -> check_control (reloaded_control c) = Ok (reloaded_control c).
Proof.
  unfold complete_control, check_control, reloaded_control, set_dissipation. destruct c as [k h v r d]. cbn [c_kind c_hypermesh c_values c_rates c_dissipation].
  destruct k; cbn [c_kind c_hypermesh c_values c_rates c_dissipation].
  - intros (-> & -> & ->). reflexivity.
  - intros (-> & H & ->). rewrite H. reflexivity.
  - intros (_ & H & ->). rewrite H, Nat.eqb_refl. reflexivity.
  - intros (-> & H1 & H2). cbn [is_nil negb]. rewrite H1, H2.
    destruct direct; [destruct r; [|discriminate]; cbn [is_nil negb]; rewrite andb_false_r; reflexivity|rewrite Nat.eqb_refl; reflexivity].
Qed.

(** The document of a lap, and the lap read from it. *)
Definition fields_of_lap (nm : names) (l : lap) : list (string * list Q) :=
  ("laptime", [round6 (l_laptime l)]) :: (k_key nm, l_s l) ::
  map (fun iq => (snd iq, column (l_inputs l) (fst iq))) (combine (seq 0 (length (k_inputs nm))) (k_inputs nm)) ++
  [("x", l_x l); ("y", l_y l); ("psi", l_psi l)].
Definition doc_of_lap (nm : names) (l : lap) (iterations : nat) : lap_doc :=
  MkLapDoc (l_points l) (if l_closed l then "closed" else "open") (if l_direct l then "true" else "false")
    (fields_of_lap nm l) (map (fun uc => (fst uc, node_of (l_direct l) (snd uc))) (combine (k_controls nm) (l_controls l)))
    (variables_per_point (l_direct l) (length (k_inputs nm)) (l_controls l))
    (constraints_per_element (l_direct l) (length (k_inputs nm)) (k_extra nm) (l_controls l)) iterations
    [("zl", l_zl l); ("zu", l_zu l); ("lambda", l_lambda l)].
Definition reloaded_lap (l : lap) : lap :=
  MkLap (l_closed l) (l_direct l) (l_points l) (l_s l) (l_inputs l) (map reloaded_control (l_controls l)) (l_x l) (l_y l) (l_psi l)
    None (l_zl l) (l_zu l) (l_lambda l) (round6 (l_laptime l)).

Lemma in_combine_seq A (l : list A) : forall k i a, In (i, a) (combine (seq k (length l)) l) -> (k <= i < k + length l)%nat.
Proof. intros k i a H. apply in_combine_l in H. apply in_seq in H. exact H. Qed.

Lemma save_lap_ok nm l it : complete_lap nm l -> l_iterations l = Some it -> save_lap nm l = Ok (doc_of_lap nm l it).
Proof.
  intros (Hn & Hi & HF & Hs & Hx & Hy & Hp & Hc & HC & _ & Z1 & Z2 & Z3) Eit. unfold save_lap. rewrite Hi.
  assert (Ne : l_inputs l <> []) by (apply nonempty_length; lia).
  rewrite (write_all_ok (l_s l)) by (apply nonempty_length; lia). cbn [bind].
  rewrite (all_ok_map' _ _ _ (fun iq => (snd iq, column (l_inputs l) (fst iq)))).
  2:{ intros [i q] H. apply in_combine_seq in H. apply write_input_ok with (n := length (k_inputs nm)); [exact Ne|exact HF|]. apply H. }
  cbn [bind].
  rewrite (all_ok_map' _ _ _ (fun uc => (fst uc, node_of (l_direct l) (snd uc)))).
  2:{ intros [u c] H. apply in_combine_r in H. rewrite Forall_forall in HC. cbn [fst snd].
      rewrite (write_control_ok _ _ _ Hn (HC c H)). reflexivity. }
  cbn [bind]. rewrite !write_vector_ok by assumption. cbn [bind]. rewrite Eit. cbn [bind].
  rewrite !write_all_ok by assumption. reflexivity.
Qed.

Lemma map_fst_map A B C (f : A -> B * C) (g : A -> B) l : (forall a, fst (f a) = g a) -> map fst (map f l) = map g l.
Proof. intro H. rewrite map_map. now apply map_ext. Qed.
Lemma combine_fst A B (l : list A) : forall (l' : list B), length l = length l' -> map fst (combine l l') = l.
Proof. induction l as [|a l IH]; intros [|b l'] H; try discriminate; [reflexivity|]. cbn. f_equal. apply IH. now injection H. Qed.
Lemma combine_snd A B (l' : list B) : forall (l : list A), length l = length l' -> map snd (combine l l') = l'.
Proof. induction l' as [|a l' IH]; intros [|b l] H; try discriminate; [reflexivity|]. cbn. f_equal. apply IH. now injection H. Qed.

Lemma fields_names nm l : map fst (fields_of_lap nm l) = "laptime" :: k_key nm :: k_inputs nm ++ ["x"; "y"; "psi"].
Proof.
  unfold fields_of_lap. cbn [map fst]. rewrite map_app. cbn [map fst]. do 3 f_equal.
  rewrite (map_fst_map _ _ _ _ snd) by reflexivity. apply combine_snd. now rewrite seq_length.
Qed.

Lemma all_ok_combine A B (f : A -> res B) : forall (l : list A) (l' : list B), length l = length l' ->
  (forall a b, In (a, b) (combine l l') -> f a = Ok b) -> all_ok (map f l) = Ok l'.
Proof.
  induction l as [|a l IH]; intros [|b l'] HL H; try discriminate; [reflexivity|]. cbn [map all_ok].
  rewrite (H a b) by (left; reflexivity). cbn [bind]. rewrite (IH l'); [reflexivity|now injection HL|]. intros; apply H; now right.
Qed.
Lemma in_combine_map A B C (f : B -> C) (l : list A) : forall (l' : list B) a c, In (a, c) (combine l (map f l')) ->
  exists b, c = f b /\ In (a, b) (combine l l').
Proof.
  induction l as [|x l IH]; intros [|y l'] a c H; try (now destruct H). cbn in H. destruct H as [E|H].
  - injection E as <- <-. exists y. split; [reflexivity|now left].
  - destruct (IH _ _ _ H) as (b & -> & Hb). exists b. split; [reflexivity|now right].
Qed.
Lemma in_combine_map_l A B C (f : A -> C) (l : list A) : forall (l' : list B) a b, In (a, b) (combine l l') -> In (f a, b) (combine (map f l) l').
Proof.
  induction l as [|x l IH]; intros [|y l'] a c H; try (now destruct H). destruct H as [E|H]; [injection E as -> ->; now left|right; auto].
Qed.
Lemma in_combine_swap A B (l : list A) : forall (l' : list B) a b, In (a, b) (combine l l') -> In (b, a) (combine l' l).
Proof. induction l as [|x l IH]; intros [|y l'] a c H; try (now destruct H). destruct H as [E|H]; [injection E as -> ->; now left|right; auto]. Qed.

Lemma load_lap_ok nm l it : distinct_names nm -> complete_lap nm l -> load_lap nm (doc_of_lap nm l it) = Ok (reloaded_lap l).
Proof.
  intros (ND & NU) (Hn & Hi & HF & Hs & Hx & Hy & Hp & Hc & HC & _ & Z1 & Z2 & Z3).
  assert (NF : NoDup (map fst (fields_of_lap nm l))) by (rewrite fields_names; exact ND).
  assert (FF : forall name v, In (name, v) (fields_of_lap nm l) -> field (fields_of_lap nm l) name = Ok v) by (intros; now apply field_in).
  unfold load_lap, doc_of_lap.
  cbn [ld_points ld_type ld_direct ld_fields ld_controls ld_multipliers].
  assert (E1 : (if String.eqb (if l_closed l then "closed" else "open") "closed" then Ok true
     else if String.eqb (if l_closed l then "closed" else "open") "open" then Ok false else Throw) = Ok (l_closed l)) by (destruct (l_closed l); reflexivity).
  assert (E2 : (if String.eqb (if l_direct l then "true" else "false") "true" then Ok true
     else if String.eqb (if l_direct l then "true" else "false") "false" then Ok false else Throw) = Ok (l_direct l)) by (destruct (l_direct l); reflexivity).
  rewrite E1. cbn [bind]. rewrite E2. cbn [bind]. clear E1 E2. unfold number.
  rewrite (FF "laptime" [round6 (l_laptime l)]) by (left; reflexivity). cbn [bind].
  rewrite (FF (k_key nm) (l_s l)) by (right; left; reflexivity). cbn [bind].
  rewrite (all_ok_combine _ _ _ (k_inputs nm) (map (column (l_inputs l)) (seq 0 (length (k_inputs nm))))).
  2:{ now rewrite map_length, seq_length. }
  2:{ intros q c H. apply in_combine_map in H. destruct H as (i & -> & H). rewrite (FF q (column (l_inputs l) i)).
      - cbn [bind]. assert (L : length (column (l_inputs l) i) = l_points l) by (unfold column; now rewrite map_length).
        rewrite <- L. apply read_all.
      - right. right. apply in_or_app. left. apply in_map_iff. exists (i, q). split; [reflexivity|]. now apply in_combine_swap. }
  cbn [bind].
  rewrite (all_ok_combine _ _ _ (k_controls nm) (map reloaded_control (l_controls l))).
  2:{ now rewrite map_length. }
  2:{ intros u c' H. apply in_combine_map in H. destruct H as (c & -> & H).
      assert (HCc : complete_control (l_direct l) (l_points l) c) by (rewrite Forall_forall in HC; apply HC; apply in_combine_r in H; exact H).
      apply read_control_ok with (n := l_points l); [|exact HCc]. apply node_in.
      - rewrite (map_fst_map _ _ _ _ fst) by reflexivity. rewrite combine_fst by (now symmetry). exact NU.
      - apply in_map_iff. exists (u, c). split; [reflexivity|exact H]. }
  cbn [bind]. unfold check_controls. rewrite map_map.
  rewrite (all_ok_map' _ _ _ reloaded_control).
  2:{ intros c H. apply check_reloaded with (direct := l_direct l) (n := l_points l). rewrite Forall_forall in HC. now apply HC. }
  cbn [bind].
  rewrite (FF "x" (l_x l)) by (right; right; apply in_or_app; right; left; reflexivity). cbn [bind].
  rewrite (FF "y" (l_y l)) by (right; right; apply in_or_app; right; right; left; reflexivity). cbn [bind].
  rewrite (FF "psi" (l_psi l)) by (right; right; apply in_or_app; right; right; right; left; reflexivity). cbn [bind field String.eqb Ascii.eqb Bool.eqb].
  pose proof (transpose_columns (l_inputs l) (length (k_inputs nm)) HF) as ET. rewrite Hi in ET.
  cbn. unfold reloaded_lap. now rewrite ET.
Qed.

Lemma count_reloaded cs : count_full (map reloaded_control cs) = count_full cs /\ count_constant (map reloaded_control cs) = count_constant cs /\
  count_hypermesh_points (map reloaded_control cs) = count_hypermesh_points cs.
Proof. induction cs as [|[k h v r d] cs (I1 & I2 & I3)]; [auto|]. cbn [map]. cbn. rewrite I1, I2, I3. auto. Qed.
