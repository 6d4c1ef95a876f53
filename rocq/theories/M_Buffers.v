(** Model of the C API functions that write into arrays owned by the caller
    (src/main/c/fastestlapc.cpp). An array is the list of its current elements;
    writing at an index outside of it is undefined behaviour. *)
From stdpp Require Import base strings gmap list.
From Coq Require Import ZArith Ascii.
From Verif Require Import M_Store.

(** Outcome of a call, with the arrays as the caller finds them afterwards. *)
Inductive outcome (B : Type) := Done (b : B) | Threw (b : B) | OutOfBounds.
Arguments Done {B}. Arguments Threw {B}. Arguments OutOfBounds {B}.

(** Elements [xs] written one after the other at the start of the array:
    std::copy into [data] (fastestlapc.cpp:688) and the loops at 525-526. *)
Fixpoint write_all {A} (xs buf : list A) : option (list A) :=
  match xs, buf with
  | [], _ => Some buf
  | x :: xs', _ :: buf' => option_map (cons x) (write_all xs' buf')
  | _ :: _, [] => None
  end.

Definition nul : ascii := ascii_of_nat 0.

(** The characters that strcpy copies: those before the first NUL, and a NUL. *)
Fixpoint c_string (t : list ascii) : list ascii :=
  match t with
  | [] => [nul]
  | c :: t' => if Ascii.eqb c nul then [nul] else c :: c_string t'
  end.

(** models: strcpy(buf, text.c_str()). *)
Definition strcpy (buf : list ascii) (text : string) : option (list ascii) :=
  write_all (c_string (list_ascii_of_string text)) buf.

Definition done_or_oob {B} (b : option B) : outcome B :=
  match b with Some b => Done b | None => OutOfBounds end.

(** models: download_vector, fastestlapc.cpp:667-693. *)
Definition download_vector_into {K F T N} (s : store K F T N) (data : list N) (n : Z) (name : string)
  : outcome (list N) :=
  match t_vector s !! name with
  | None => Threw data
  | Some l => if (Z.of_nat (length l) =? size_of_int n)%Z
              then done_or_oob (write_all l data) else Threw data
  end.

(** models: track_download_data, fastestlapc.cpp:477-573. The named array is read
    up to [n_points], which is undefined beyond its end. *)
Definition track_download_data_into {K F T N} (e : env K F T N) (s : store K F T N) (data : list N)
  (name : string) (n : Z) (variable : string) : outcome (list N) :=
  match t_track s !! name with
  | None => Threw data
  | Some t =>
      if (size_of_int n =? Z.of_nat (e_track_points e t))%Z then
        match e_track_data e t variable with
        | None => Threw data
        | Some l => if decide (e_track_points e t <= length l)
                    then done_or_oob (write_all (take (e_track_points e t) l) data) else OutOfBounds
        end
      else Threw data
  end.

(** models: print_variable_to_string, fastestlapc.cpp:370-387. [text] is the
    string built by print_variable_to_std_string, [None] when that throws. *)
Definition print_variable_to_string (buf : list ascii) (n_char : Z) (text : option string)
  : outcome (list ascii) :=
  match text with
  | None => Threw buf
  | Some t => if (size_of_int n_char <? Z.of_nat (String.length t))%Z then Threw buf
              else done_or_oob (strcpy buf t)
  end.

(** models: variable_type, fastestlapc.cpp:615-645; [str_len_max] is not used. *)
Definition variable_type_into {K F T N} (s : store K F T N) (buf : list ascii) (str_len_max : Z)
  (name : string) : outcome (list ascii) :=
  match variable_type s name with
  | Ret (VStr t) => done_or_oob (strcpy buf t)
  | _ => Threw buf
  end.

(** models: static_cast<size_t>(n_char) - 1 in fastestlapc.cpp:728. *)
Definition size_minus_one (n_char : Z) : Z := ((size_of_int n_char - 1) mod 2 ^ 64)%Z.

(** models: vehicle_type_get_names_generic, fastestlapc.cpp:724-752. The key, state,
    control and output names are written one after the other; [names] is their
    concatenation and [bufs] the corresponding caller's arrays. *)
Fixpoint get_names (n_char : Z) (names : list string) (bufs : list (list ascii))
  : outcome (list (list ascii)) :=
  match names, bufs with
  | [], _ => Done bufs
  | _ :: _, [] => OutOfBounds
  | t :: names', b :: bufs' =>
      if (size_minus_one n_char <? Z.of_nat (String.length t))%Z then Threw (b :: bufs')
      else match strcpy b t with
           | None => OutOfBounds
           | Some b' => match get_names n_char names' bufs' with
                        | Done bs => Done (b' :: bs)
                        | Threw bs => Threw (b' :: bs)
                        | OutOfBounds => OutOfBounds
                        end
           end
  end.

(** models: vehicle_get_output_variable_names, fastestlapc.cpp:776-807, for a known
    vehicle whose output map has the keys [names]; [n_char] is not used. *)
Fixpoint copy_names (names : list string) (bufs : list (list ascii)) : option (list (list ascii)) :=
  match names, bufs with
  | [], _ => Some bufs
  | _ :: _, [] => None
  | t :: names', b :: bufs' =>
      match strcpy b t, copy_names names' bufs' with
      | Some b', Some bs => Some (b' :: bs)
      | _, _ => None
      end
  end.
Definition get_output_names (n_outputs n_char : Z) (names : list string) (bufs : list (list ascii))
  : outcome (list (list ascii)) :=
  if (size_of_int n_outputs =? Z.of_nat (length names))%Z then done_or_oob (copy_names names bufs)
  else Threw bufs.
