(** Property theorems C11-C14 and C63: arrays owned by the caller. *)
From stdpp Require Import base strings gmap list.
From Coq Require Import ZArith Ascii.
From Verif Require Import M_Store S_Store M_Buffers S_Buffers L_Buffers P_Store.

(** *** C11 *)
Theorem C11_download_vector_buffer : forall {K F T N} (s : store K F T N) (data : list N) n name,
  (0 <= n < 2 ^ 31)%Z -> Z.of_nat (length data) = n ->
  match download_vector_into s data n name with
  | Done d => holds s name (VarVector d)
  | Threw d => d = data /\ ~ (exists l, holds s name (VarVector l) /\ Z.of_nat (length l) = n)
  | OutOfBounds => False
  end.
Proof. exact @download_vector_buffer. Qed.

Theorem C11_download_vector_negative : forall {K F T N} (s : store K F T N) (data : list N) n name,
  (-2 ^ 31 <= n < 0)%Z ->
  (forall l, holds s name (VarVector l) -> (Z.of_nat (length l) < 2 ^ 63)%Z) ->
  download_vector_into s data n name = Threw data.
Proof. exact @download_vector_negative. Qed.

Theorem C11_track_data_buffer : forall {K F T N} (e : env K F T N) (s : store K F T N) (data : list N) name n v,
  (0 <= n < 2 ^ 31)%Z -> Z.of_nat (length data) = n ->
  (forall t l, e_track_data e t v = Some l -> length l = e_track_points e t) ->
  match track_download_data_into e s data name n v with
  | Done d => exists t, holds s name (VarTrack t) /\ e_track_data e t v = Some d
  | Threw d => d = data /\
      ~ (exists t l, holds s name (VarTrack t) /\ e_track_data e t v = Some l /\ length data = length l)
  | OutOfBounds => False
  end.
Proof. exact @track_data_buffer. Qed.

Example C11_case :
  download_vector_into store0 [0;0] 2 "v" = Done [4;5] /\
  download_vector_into store0 [0;0;0] 3 "v" = Threw [0;0;0] /\
  track_download_data_into env0 store0 [0;0;0] "catalunya" 3 "heading-angle" = Done [1;1;1] /\
  (forall t l, e_track_data env0 t "heading-angle" = Some l -> length l = e_track_points env0 t).
Proof.
  repeat split; try (vm_compute; reflexivity).
  intros t l H. vm_compute in H. injection H as <-. apply repeat_length.
Qed.

(** *** C12 *)
Theorem C12_print_to_string_partial : forall buf n t,
  (0 <= n < 2 ^ 31)%Z -> Z.of_nat (length buf) = n -> text_only t ->
  Z.of_nat (String.length t) <> n ->
  match print_variable_to_string buf n (Some t) with
  | Done b => (Z.of_nat (String.length t) < n)%Z /\ holds_text t buf b
  | Threw b => b = buf /\ (n < Z.of_nat (String.length t))%Z
  | OutOfBounds => False
  end.
Proof. exact print_to_string_buffer. Qed.

Theorem C12_print_to_string_refuted : forall buf n t,
  (0 <= n < 2 ^ 31)%Z -> Z.of_nat (length buf) = n -> text_only t ->
  Z.of_nat (String.length t) = n -> print_variable_to_string buf n (Some t) = OutOfBounds.
Proof. exact print_to_string_overflow. Qed.

Theorem C12_print_to_string_negative_refuted : exists n t,
  (-2 ^ 31 <= n < 0)%Z /\ print_variable_to_string [] n (Some t) = OutOfBounds.
Proof. exists (-1)%Z, "3.5". split; [lia|reflexivity]. Qed.

Example C12_case : text_only "3.5" /\
  print_variable_to_string ["z"; "z"; "z"; "z"; "z"]%char 5 (Some "3.5")
    = Done ["3"; "."; "5"; ascii_of_nat 0; "z"]%char /\
  print_variable_to_string ["z"; "z"; "z"]%char 3 (Some "3.5") = OutOfBounds.
Proof. split; [intro H; simpl in H; intuition discriminate|]. split; reflexivity. Qed.

(** *** C13 *)
Theorem C13_get_names_partial : forall n names bufs,
  (1 <= n < 2 ^ 31)%Z -> Forall text_only names ->
  Forall (fun b => Z.of_nat (length b) = n) bufs -> length names = length bufs ->
  match get_names n names bufs with
  | Done bs => Forall (fun t => (Z.of_nat (String.length t) < n)%Z) names /\
      length bs = length bufs /\
      forall i t before after, names !! i = Some t -> bufs !! i = Some before -> bs !! i = Some after ->
        holds_text t before after
  | Threw bs => ~ Forall (fun t => (Z.of_nat (String.length t) < n)%Z) names
  | OutOfBounds => False
  end.
Proof. exact get_names_buffer. Qed.

Theorem C13_get_names_refuted : exists names bufs,
  Forall (fun b => length b = 0) bufs /\ length names = length bufs /\
  get_names 0 names bufs = OutOfBounds.
Proof. exists ["chassis.velocity.x"], [[]]. repeat constructor. Qed.

Example C13_case : get_names 4 ["u"; "vel"] [["."; "."; "."; "."]; ["."; "."; "."; "."]]%char
  = Done [["u"; ascii_of_nat 0; "."; "."]; ["v"; "e"; "l"; ascii_of_nat 0]]%char.
Proof. reflexivity. Qed.

(** *** C14 *)
Theorem C14_variable_type_partial : forall {K F T N} (s : store K F T N) buf m name,
  10 <= length buf ->
  match variable_type_into s buf m name with
  | Done b => exists t, variable_type s name = Ret (VStr t) /\ holds_text t buf b
  | Threw b => b = buf /\ variable_type s name = Exc
  | OutOfBounds => False
  end.
Proof. exact @variable_type_buffer. Qed.

Theorem C14_variable_type_refuted : exists cs name buf, let s := (run env0 empty0 cs).1 in
  variable_type_into s buf (Z.of_nat (length buf)) name = OutOfBounds.
Proof. exists prelude0, "catalunya", ["."; "."; "."; "."; "."]%char. vm_compute. reflexivity. Qed.

Example C14_case : variable_type_into store0 (repeat "."%char 10) 10 "x" <> OutOfBounds.
Proof. vm_compute. discriminate. Qed.

(** *** C63 *)
Theorem C63_output_names_partial : forall n_outputs n_char names bufs,
  (0 <= n_outputs < 2 ^ 31)%Z -> length bufs = Z.to_nat n_outputs ->
  Forall text_only names ->
  Forall (fun b => Z.of_nat (length b) = n_char) bufs ->
  Forall (fun t => (Z.of_nat (String.length t) < n_char)%Z) names ->
  get_output_names n_outputs n_char names bufs <> OutOfBounds.
Proof. exact get_output_names_buffer. Qed.

Theorem C63_output_names_refuted : exists n_outputs n_char names bufs,
  length bufs = Z.to_nat n_outputs /\ Forall (fun b => Z.of_nat (length b) = n_char) bufs /\
  get_output_names n_outputs n_char names bufs = OutOfBounds.
Proof. exists 1%Z, 3%Z, ["x.acceleration"], [["."; "."; "."]%char]. repeat constructor. Qed.

Example C63_case : get_output_names 1 3 ["ax"] [["."; "."; "."]%char] = Done [["a"; "x"; ascii_of_nat 0]%char].
Proof. reflexivity. Qed.

Print Assumptions C11_download_vector_buffer.
Print Assumptions C11_download_vector_negative.
Print Assumptions C11_track_data_buffer.
Print Assumptions C12_print_to_string_partial.
Print Assumptions C12_print_to_string_refuted.
Print Assumptions C12_print_to_string_negative_refuted.
Print Assumptions C13_get_names_partial.
Print Assumptions C13_get_names_refuted.
Print Assumptions C14_variable_type_partial.
Print Assumptions C14_variable_type_refuted.
Print Assumptions C63_output_names_partial.
Print Assumptions C63_output_names_refuted.
