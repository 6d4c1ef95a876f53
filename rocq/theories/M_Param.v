(** Model of position-dependent model parameters
    (src/core/foundation/model_parameter.h, src/core/vehicles/dynamic_model.h).
    Numbers are exact rationals instead of doubles. *)
From Coq Require Import String QArith Bool Arith List.
Import ListNotations.
Local Open Scope Q_scope.

(** models: the members of Model_parameter, model_parameter.h:91-94. *)
Record parameter := MkParameter {
  par_path    : string;
  par_aliases : list string;
  par_values  : list Q;
  par_mesh    : list (Q * nat)
}.

(** models: the constant constructor, model_parameter.h:9-11. *)
Definition make_constant (path alias : string) (value : Q) : parameter :=
  MkParameter path [alias] [value] [].

(** models: std::is_sorted with the comparison [lhs.first <= rhs.first]
    (model_parameter.h:28): sorted when no element is [<=] its predecessor. *)
Fixpoint mesh_sorted (mesh : list (Q * nat)) : bool :=
  match mesh with
  | a :: ((b :: _) as rest) => negb (Qle_bool (fst b) (fst a)) && mesh_sorted rest
  | _ => true
  end.

(** models: used_parameters[i] = true (model_parameter.h:34-40). *)
Fixpoint set_true (l : list bool) (i : nat) : list bool :=
  match l, i with
  | [], _ => []
  | _ :: l', O => true :: l'
  | b :: l', S i' => b :: set_true l' i'
  end.

(** models: the loop of model_parameter.h:34-40; [None] when it throws. *)
Fixpoint mark_used (n : nat) (mesh : list (Q * nat)) (used : list bool) : option (list bool) :=
  match mesh with
  | [] => Some used
  | (_, i) :: rest => if Nat.leb n i then None else mark_used n rest (set_true used i)
  end.

(** models: the varying constructor, model_parameter.h:14-45; [None] when it throws. *)
Definition make_varying (path : string) (aliases : list string) (values : list Q)
  (mesh : list (Q * nat)) : option parameter :=
  if Nat.ltb (length values) 2 then None
  else if negb (Nat.eqb (length aliases) (length values)) then None
  else if negb (mesh_sorted mesh) then None
  else match mark_used (length values) mesh (repeat false (length values)) with
       | None => None
       | Some used => if Nat.ltb 0 (count_occ bool_dec used false) then None
                      else Some (MkParameter path aliases values mesh)
       end.

(** models: std::upper_bound (model_parameter.h:60): number of leading mesh points
    that are not after [s]. The binary search is replaced by a scan, which gives the
    same position on a sorted mesh. *)
Fixpoint upper_bound (mesh : list (Q * nat)) (s : Q) : nat :=
  match mesh with
  | [] => O
  | a :: rest => if Qle_bool (fst a) s then S (upper_bound rest s) else O
  end.

(** models: operator()(s), model_parameter.h:51-77; [None] for an access outside
    of a vector. *)
Definition par_eval (p : parameter) (s : Q) : option Q :=
  if Nat.eqb (length (par_values p)) 1 then nth_error (par_values p) 0
  else
    let it := upper_bound (par_mesh p) s in
    if Nat.eqb it 0 then nth_error (par_values p) 0
    else if Nat.eqb it (length (par_mesh p)) then
      nth_error (par_values p) (length (par_values p) - 1)
    else match nth_error (par_mesh p) (it - 1), nth_error (par_mesh p) it with
         | Some (sl, il), Some (sr, ir) =>
             match nth_error (par_values p) il, nth_error (par_values p) ir with
             | Some vl, Some vr => let xi := (s - sl) / (sr - sl) in Some (vl + xi * (vr - vl))
             | _, _ => None
             end
         | _, _ => None
         end.

(** models: Model_parameters::get_number_of_parameters, model_parameter.h:102. *)
Definition number_of_parameters (ps : list parameter) : nat :=
  fold_left (fun n p => n + length (par_values p))%nat ps O.

(** models: get_all_parameters_as_scalar, model_parameter.h:104-118: consecutive copies
    of the values. *)
Definition get_all (ps : list parameter) : list Q := flat_map par_values ps.

(** models: get_all_parameters_aliases, model_parameter.h:120-134. Copies the aliases
    and advances by the number of values; the two numbers agree for every
    constructed parameter, so the copies are consecutive. *)
Definition get_all_aliases (ps : list parameter) : list string := flat_map par_aliases ps.

Definition with_values (p : parameter) (values : list Q) : parameter :=
  MkParameter (par_path p) (par_aliases p) values (par_mesh p).

(** models: set_all_parameters, model_parameter.h:137-149, without the assertions
    (release build). [None]: reading past the end of [inputs]. *)
Fixpoint set_all (ps : list parameter) (inputs : list Q) : option (list parameter) :=
  match ps with
  | [] => Some []
  | p :: rest =>
      let n := length (par_values p) in
      if Nat.ltb (length inputs) n then None
      else option_map (cons (with_values p (firstn n inputs))) (set_all rest (skipn n inputs))
  end.

(** models: Dynamic_model::add_parameter, dynamic_model.h:15-25; [None] when it
    throws. [made] is the outcome of the constructor run by emplace_back. *)
Definition add_parameter (ps : list parameter) (path : string) (made : option parameter)
  : option (list parameter) :=
  if existsb (fun p => String.eqb (par_path p) path) ps then None
  else option_map (fun p => ps ++ [p]) made.

(** The two ways of calling add_parameter. *)
Inductive add_call :=
| AddConstant (path alias : string) (value : Q)
| AddVarying (path : string) (aliases : list string) (values : list Q) (mesh : list (Q * nat)).
Definition call_path (c : add_call) : string :=
  match c with AddConstant p _ _ => p | AddVarying p _ _ _ => p end.
Definition call_make (c : add_call) : option parameter :=
  match c with
  | AddConstant p a v => Some (make_constant p a v)
  | AddVarying p a v m => make_varying p a v m
  end.
(** A sequence of add_parameter calls in which exceptions are caught. *)
Definition add_one (ps : list parameter) (c : add_call) : list parameter :=
  match add_parameter ps (call_path c) (call_make c) with Some ps' => ps' | None => ps end.
Definition add_many (ps : list parameter) (cs : list add_call) : list parameter :=
  fold_left add_one cs ps.
