(** What the theorems on propagate_vehicle say. *)
From Coq Require Import String QArith ZArith List.
From Verif Require Import M_Controls M_Options M_Propagate.
Import ListNotations.
Local Open Scope string_scope.

(** What the text asks for an option: the number written in the element options/[name], or nothing. *)
Definition asks (rds : readers) (doc : xml) (name : string) (x : option Q) : Prop :=
  match element doc ["options"; name] with
  | None => x = None
  | Some e => exists y, r_num rds (x_value e) = Some y /\ x = Some y
  end.
Definition chosen {A} (x : option A) (default : A) : A := match x with Some y => y | None => default end.
(** [n] is the number [x] without its decimals. *)
Definition without_decimals (x : Q) (n : Z) : Prop :=
  ((0 <= x)%Q /\ (inject_Z n <= x < inject_Z n + 1)%Q) \/ ((x < 0)%Q /\ (inject_Z n - 1 < x <= inject_Z n)%Q).
(** Every option is the one of its own element, or the default one. *)
Definition options_of (parse : string -> option xml) (rds : readers) (defaults : step_options) (text : string) (o : step_options) : Prop :=
  (text = "" /\ o = defaults) \/
  (text <> "" /\ exists doc sigma iters tol relax, parse text = Some doc /\
     asks rds doc "sigma" sigma /\ asks rds doc "max_iter" iters /\ asks rds doc "error_tolerance" tol /\ asks rds doc "relaxation_factor" relax /\
     o_sigma o = chosen sigma (o_sigma defaults) /\ match iters with Some x => without_decimals x (o_max_iter o) | None => o_max_iter o = o_max_iter defaults end /\
     o_tolerance o = chosen tol (o_tolerance defaults) /\ o_relaxation o = chosen relax (o_relaxation defaults)).
(** The buffers of the caller hold at least the inputs and controls of the vehicle. *)
Definition buffers_hold {C T} (k : vehicle_class C T) (q u u_next : list Q) : Prop :=
  (vc_inputs k <= length q /\ vc_controls k <= length u /\ vc_controls k <= length u_next)%nat.
(** A step of the scheme keeps the number of states, and is defined. *)
Definition proper_step {C T} (k : vehicle_class C T) : Prop :=
  forall car u u' q s ds o, length q = vc_inputs k ->
    vc_step k car u u' q s ds o <> UB /\ forall q', vc_step k car u u' q s ds o = Ok q' -> length q' = vc_inputs k.
(** What a call does, for a vehicle of the class [k]: which car takes the step, and what is then in the buffer. *)
Definition takes_step {C T} (parse : string -> option xml) (rds : readers) (defaults : step_options) (k : vehicle_class C T) (car : C) (q u : list Q) (s ds : Q) (u_next : list Q) (text : string) (r : res (list Q)) : Prop :=
  match r with
  | Ok q' => exists o x, options_of parse rds defaults text o /\
      vc_step k car (firstn (vc_controls k) u) (firstn (vc_controls k) u_next) (firstn (vc_inputs k) q) s ds o = Ok x /\
      firstn (vc_inputs k) q' = x /\ skipn (vc_inputs k) q' = skipn (vc_inputs k) q /\ length q' = length q
  | Throw => ~ exists o x, options_of parse rds defaults text o /\
      vc_step k car (firstn (vc_controls k) u) (firstn (vc_controls k) u_next) (firstn (vc_inputs k) q) s ds o = Ok x
  | UB => False
  end.
