(** Proofs about the caller's arrays. *)
From stdpp Require Import base strings gmap list.
From Coq Require Import ZArith Ascii.
From Verif Require Import M_Store S_Store M_Buffers S_Buffers.

Lemma write_all_ok {A} (xs buf : list A) : length xs <= length buf ->
  write_all xs buf = Some (xs ++ drop (length xs) buf).
Proof.
  revert buf; induction xs as [|x xs IH]; intros buf H; simpl; [now rewrite drop_0|].
  destruct buf as [|b buf]; simpl in *; [lia|]. rewrite IH by lia. reflexivity.
Qed.
Lemma write_all_oob {A} (xs buf : list A) : length buf < length xs -> write_all xs buf = None.
Proof.
  revert buf; induction xs as [|x xs IH]; intros buf H; simpl in *; [lia|].
  destruct buf as [|b buf]; [reflexivity|]. simpl in *. now rewrite IH by lia.
Qed.

Lemma size_of_int_nonneg n : (0 <= n < 2 ^ 31)%Z -> size_of_int n = n.
Proof. intro H. unfold size_of_int. apply Z.mod_small. lia. Qed.
Lemma size_of_int_neg n : (-2 ^ 31 <= n < 0)%Z -> (2 ^ 63 <= size_of_int n)%Z.
Proof.
  intro H. unfold size_of_int. replace (n mod 2 ^ 64)%Z with (n + 2 ^ 64)%Z; [lia|].
  apply Z.mod_unique with (-1)%Z; [left|]; lia.
Qed.

Lemma c_string_text t : text_only t -> c_string (list_ascii_of_string t) = list_ascii_of_string t ++ [nul].
Proof.
  unfold text_only. change (ascii_of_nat 0) with nul. induction (list_ascii_of_string t) as [|c l IH]; simpl; intro H; [reflexivity|].
  destruct (Ascii.eqb_spec c nul) as [->|]; [exfalso; apply H; now left|].
  rewrite IH; [reflexivity|]. intro; apply H; now right.
Qed.
Lemma c_string_short l : length (c_string l) <= S (length l).
Proof. induction l as [|c l IH]; simpl; [lia|]. destruct (Ascii.eqb c nul); simpl; lia. Qed.

Lemma length_chars t : length (list_ascii_of_string t) = String.length t.
Proof. induction t; simpl; congruence. Qed.

Lemma strcpy_ok b t : String.length t < length b -> exists b', strcpy b t = Some b' /\ length b' = length b.
Proof.
  intro H. unfold strcpy. pose proof (c_string_short (list_ascii_of_string t)) as L.
  rewrite length_chars in L. rewrite write_all_ok by lia. eexists; split; [reflexivity|].
  rewrite app_length, drop_length. lia.
Qed.
Lemma strcpy_text b t : text_only t -> String.length t < length b ->
  exists b', strcpy b t = Some b' /\ holds_text t b b'.
Proof.
  intros Ht H. unfold strcpy. rewrite (c_string_text t Ht).
  rewrite write_all_ok by (rewrite app_length, length_chars; simpl; lia).
  eexists; split; [reflexivity|]. unfold holds_text. rewrite app_length, length_chars, <- app_assoc. simpl.
  now rewrite Nat.add_1_r.
Qed.
Lemma strcpy_oob b t : text_only t -> length b <= String.length t -> strcpy b t = None.
Proof.
  intros Ht H. unfold strcpy. rewrite (c_string_text t Ht).
  apply write_all_oob. rewrite app_length, length_chars. simpl. lia.
Qed.

Section Vectors.
Context {K F T N : Type}.
Implicit Types s : store K F T N.

Lemma download_vector_buffer s (data : list N) n name :
  (0 <= n < 2 ^ 31)%Z -> Z.of_nat (length data) = n ->
  match download_vector_into s data n name with
  | Done d => holds s name (VarVector d)
  | Threw d => d = data /\ ~ (exists l, holds s name (VarVector l) /\ Z.of_nat (length l) = n)
  | OutOfBounds => False
  end.
Proof.
  intros Hn Hd. unfold download_vector_into. simpl.
  destruct (t_vector s !! name) as [l|] eqn:E.
  - rewrite size_of_int_nonneg by exact Hn. destruct (Z.eqb_spec (Z.of_nat (length l)) n) as [Hl|Hl].
    + rewrite write_all_ok by lia. simpl. rewrite drop_ge by lia. now rewrite app_nil_r.
    + split; [reflexivity|]. intros (l' & [= <-] & ?). auto.
  - split; [reflexivity|]. intros (l' & ? & ?). discriminate.
Qed.

Lemma download_vector_negative s (data : list N) n name :
  (-2 ^ 31 <= n < 0)%Z ->
  (forall l, holds s name (VarVector l) -> (Z.of_nat (length l) < 2 ^ 63)%Z) ->
  download_vector_into s data n name = Threw data.
Proof.
  intros Hn Hl. unfold download_vector_into. destruct (t_vector s !! name) as [l|] eqn:E; [|reflexivity].
  pose proof (size_of_int_neg n Hn). specialize (Hl l E). destruct (Z.eqb_spec (Z.of_nat (length l)) (size_of_int n)); [lia|reflexivity].
Qed.

Lemma track_data_buffer e s (data : list N) name n v :
  (0 <= n < 2 ^ 31)%Z -> Z.of_nat (length data) = n ->
  (forall t l, e_track_data e t v = Some l -> length l = e_track_points e t) ->
  match track_download_data_into e s data name n v with
  | Done d => exists t, holds s name (VarTrack t) /\ e_track_data e t v = Some d
  | Threw d => d = data /\ ~ (exists t l, holds s name (VarTrack t) /\ e_track_data e t v = Some l /\ length data = length l)
  | OutOfBounds => False
  end.
Proof.
  intros Hn Hd Hw. unfold track_download_data_into. simpl.
  destruct (t_track s !! name) as [t|] eqn:E.
  2: { split; [reflexivity|]. intros (t & l & ? & ?). discriminate. }
  rewrite size_of_int_nonneg by exact Hn.
  destruct (Z.eqb_spec n (Z.of_nat (e_track_points e t))) as [Hp|Hp].
  - destruct (e_track_data e t v) as [l|] eqn:Ed.
    + pose proof (Hw t l Ed) as Hl. destruct (decide (e_track_points e t <= length l)); [|lia].
      rewrite take_ge by lia. rewrite write_all_ok by lia. simpl. rewrite drop_ge by lia. rewrite app_nil_r. eauto.
    + split; [reflexivity|]. intros (t' & l & [= <-] & ? & ?). congruence.
  - split; [reflexivity|]. intros (t' & l & [= <-] & Hl & Hlen). apply Hw in Hl. lia.
Qed.

Lemma variable_type_buffer s buf m name : 10 <= length buf ->
  match variable_type_into s buf m name with
  | Done b => exists t, variable_type s name = Ret (VStr t) /\ holds_text t buf b
  | Threw b => b = buf /\ variable_type s name = Exc
  | OutOfBounds => False
  end.
Proof.
  intro H. unfold variable_type_into.
  assert (A : forall t, text_only t -> String.length t <= 9 ->
    match done_or_oob (strcpy buf t) with
    | Done b => exists t', Ret (N:=N) (VStr t) = Ret (VStr t') /\ holds_text t' buf b
    | Threw b => b = buf /\ Ret (N:=N) (VStr t) = Exc
    | OutOfBounds => False end).
  { intros t Ht Hl. destruct (strcpy_text buf t Ht) as (b' & -> & Hb); [lia|]. simpl. eauto. }
  unfold variable_type.
  repeat (match goal with |- context[if ?b then _ else _] => destruct b end;
    [apply A; [intro Hin; simpl in Hin; intuition discriminate | simpl; lia] |]).
  split; reflexivity.
Qed.
End Vectors.

Lemma print_to_string_buffer buf n t :
  (0 <= n < 2 ^ 31)%Z -> Z.of_nat (length buf) = n -> text_only t ->
  Z.of_nat (String.length t) <> n ->
  match print_variable_to_string buf n (Some t) with
  | Done b => (Z.of_nat (String.length t) < n)%Z /\ holds_text t buf b
  | Threw b => b = buf /\ (n < Z.of_nat (String.length t))%Z
  | OutOfBounds => False
  end.
Proof.
  intros Hn Hb Ht Hne. unfold print_variable_to_string. rewrite size_of_int_nonneg by exact Hn.
  destruct (Z.ltb_spec n (Z.of_nat (String.length t))) as [H|H]; [auto|].
  destruct (strcpy_text buf t Ht) as (b' & -> & Hb'); [lia|]. simpl. split; [lia|exact Hb'].
Qed.

Lemma print_to_string_overflow buf n t :
  (0 <= n < 2 ^ 31)%Z -> Z.of_nat (length buf) = n -> text_only t ->
  Z.of_nat (String.length t) = n -> print_variable_to_string buf n (Some t) = OutOfBounds.
Proof.
  intros Hn Hb Ht He. unfold print_variable_to_string. rewrite size_of_int_nonneg by exact Hn.
  destruct (Z.ltb_spec n (Z.of_nat (String.length t))) as [H|H]; [lia|].
  rewrite strcpy_oob; [reflexivity|exact Ht|lia].
Qed.

Lemma size_minus_one_pos n : (1 <= n < 2 ^ 31)%Z -> size_minus_one n = (n - 1)%Z.
Proof. intro H. unfold size_minus_one. rewrite size_of_int_nonneg by lia. apply Z.mod_small. lia. Qed.

Lemma get_names_buffer n names : forall bufs,
  (1 <= n < 2 ^ 31)%Z -> Forall text_only names ->
  Forall (fun b => Z.of_nat (length b) = n) bufs -> length names = length bufs ->
  match get_names n names bufs with
  | Done bs => Forall (fun t => (Z.of_nat (String.length t) < n)%Z) names /\
      length bs = length bufs /\
      forall i t before after, names !! i = Some t -> bufs !! i = Some before -> bs !! i = Some after ->
        holds_text t before after
  | Threw bs => ~ Forall (fun t => (Z.of_nat (String.length t) < n)%Z) names
  | OutOfBounds => False
  end.
Proof.
  induction names as [|t names IH]; intros bufs Hn Ht Hb Hl; simpl.
  - repeat split; [apply Forall_nil; exact I|]. intros i t b a H. now rewrite lookup_nil in H.
  - destruct bufs as [|b bufs]; [discriminate|]. rewrite size_minus_one_pos by exact Hn.
    apply Forall_cons in Ht as [Ht Hts]. apply Forall_cons in Hb as [Hb Hbs].
    destruct (Z.ltb_spec (n - 1) (Z.of_nat (String.length t))) as [H|H].
    + rewrite Forall_cons. intros [? _]. lia.
    + destruct (strcpy_text b t Ht) as (b' & -> & Hb'); [lia|].
      specialize (IH bufs Hn Hts Hbs). simpl in Hl. destruct (get_names n names bufs) as [bs|bs|].
      * destruct IH as (I1 & I2 & I3); [lia|]. split; [apply Forall_cons; split; [lia|exact I1]|].
        split; [simpl; lia|]. intros [|i] t' bef aft; simpl; [congruence|apply I3].
      * rewrite Forall_cons. intros [_ ?]. apply IH; [lia|assumption].
      * apply IH. lia.
Qed.

Lemma get_output_names_buffer n_outputs n_char names bufs :
  (0 <= n_outputs < 2 ^ 31)%Z -> length bufs = Z.to_nat n_outputs ->
  Forall text_only names ->
  Forall (fun b => Z.of_nat (length b) = n_char) bufs ->
  Forall (fun t => (Z.of_nat (String.length t) < n_char)%Z) names ->
  get_output_names n_outputs n_char names bufs <> OutOfBounds.
Proof.
  intros Hn Hl Ht Hb Hs. unfold get_output_names. rewrite size_of_int_nonneg by exact Hn.
  destruct (Z.eqb_spec n_outputs (Z.of_nat (length names))) as [He|]; [|discriminate].
  assert (A : copy_names names bufs <> None).
  { assert (Hlen : length names = length bufs) by lia. clear -Ht Hb Hs Hlen. revert bufs Hb Hlen.
    induction names as [|t names IH]; intros bufs Hb Hlen; simpl; [discriminate|].
    destruct bufs as [|b bufs]; [discriminate|].
    apply Forall_cons in Ht as [Ht Hts]. apply Forall_cons in Hb as [Hb Hbs]. apply Forall_cons in Hs as [Hs Hss].
    destruct (strcpy_text b t Ht) as (b' & -> & _); [lia|].
    specialize (IH Hts Hss bufs Hbs). destruct (copy_names names bufs); [discriminate|]. apply IH. simpl in Hlen. lia. }
  destruct (copy_names names bufs); [discriminate|congruence].
Qed.
