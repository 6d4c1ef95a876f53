(** Specification for the questions to the C API: a reader of the listing, and what it means that
    two vehicles can only be told apart by members that each evaluation sets again. *)
From stdpp Require Import base strings gmap list.
From Coq Require Import ZArith Ascii.
From Verif Require Import M_Store S_Store M_Query.

(** The lines of a text, each ended by a line feed. *)
Fixpoint lines_of (t : string) (current : string) : list string :=
  match t with
  | EmptyString => match current with EmptyString => [] | _ => [current] end
  | String c t' => if Ascii.eqb c "010"%char then current :: lines_of t' EmptyString
                   else lines_of t' (current +:+ String c EmptyString)
  end.

(** A reader of the listing: a line that begins with "Type " opens a section, a line that begins with
    "    -> " names something in the section that is open. *)
Fixpoint read_lines (section : string) (l : list string) : list (string * string) :=
  match l with
  | [] => []
  | t :: l' =>
      if String.prefix "Type " t then read_lines t l'
      else if String.prefix "    -> " t
           then (section, String.substring 7 (String.length t - 7) t) :: read_lines section l'
           else read_lines section l'
  end.
Definition read_listing (text : string) : list (string * string) := read_lines EmptyString (lines_of text EmptyString).
(** The sections, in order. *)
Definition sections (text : string) : list string := List.filter (String.prefix "Type ") (lines_of text EmptyString).

(** No line feed inside. *)
Fixpoint one_line (t : string) : Prop :=
  match t with EmptyString => True | String c t' => c <> "010"%char /\ one_line t' end.
Fixpoint no_bracket (t : string) : Prop :=
  match t with EmptyString => True | String c t' => c <> "("%char /\ no_bracket t' end.

Section Meaning.
Context {K F T N : Type}.

(** The vehicles related by [RK], [RF] cannot be told apart by the operations of M_Store: same outcome,
    and results related again. *)
Definition keeps {V} (R : V -> V -> Prop) (f : V -> V * bool) : Prop :=
  forall v v', R v v' -> R (f v).1 (f v').1 /\ (f v).2 = (f v').2.

Record indistinguishable (e : env K F T N) (RK : K -> K -> Prop) (RF : F -> F -> Prop) : Prop := {
  i_kart_eq : Equivalence RK; i_f1_eq : Equivalence RF;
  i_f1_set : forall p x, keeps RF (fun c => e_f1_set e c p x);
  i_f1_add : forall p a x, keeps RF (fun c => e_f1_add e c p a x);
  i_kart_add : forall p a x, keeps RK (fun k => e_kart_add e k p a x);
  i_f1_addv : forall p a x g, keeps RF (fun c => e_f1_addv e c p a x g);
  i_kart_addv : forall p a x g, keeps RK (fun k => e_kart_addv e k p a x g);
  i_f1_track : forall t, keeps RF (fun c => e_f1_track e c t);
  i_kart_track : forall t, keeps RK (fun k => e_kart_track e k t) }.

(** Evaluating changes nothing that matters, and what an evaluation returns does not depend on what was
    evaluated before. *)
Record evaluation_forgets (qe : qenv K F T N) (RK : K -> K -> Prop) (RF : F -> F -> Prop) : Prop := {
  f_kart_same : forall k q u p, RK k (q_kart_eval qe k q u p);
  f_f1_same : forall c q u p, RF c (q_f1_eval qe c q u p);
  f_kart_outputs : forall k k' q u p, RK k k' ->
    q_kart_outputs qe (q_kart_eval qe k q u p) = q_kart_outputs qe (q_kart_eval qe k' q u p);
  f_f1_outputs : forall c c' q u p, RF c c' ->
    q_f1_outputs qe (q_f1_eval qe c q u p) = q_f1_outputs qe (q_f1_eval qe c' q u p) }.

(** The same holds of the files (M_Tree: true of vehicles without declared parameters). *)
Definition files_forget (qe : qenv K F T N) (RK : K -> K -> Prop) (RF : F -> F -> Prop) : Prop :=
  (forall k k', RK k k' -> q_kart_xml qe k = q_kart_xml qe k') /\
  (forall c c', RF c c' -> q_f1_xml qe c = q_f1_xml qe c').

Definition rel {A} (R : A -> A -> Prop) (m m' : gmap string A) : Prop :=
  forall n, match m !! n, m' !! n with Some a, Some b => R a b | None, None => True | _, _ => False end.

(** The same variables up to vehicles that cannot be told apart. *)
Definition same_store (RK : K -> K -> Prop) (RF : F -> F -> Prop) (s s' : store K F T N) : Prop :=
  rel RK (t_kart s) (t_kart s') /\ rel RF (t_f1 s) (t_f1 s') /\
  t_track s = t_track s' /\ t_scalar s = t_scalar s' /\ t_vector s = t_vector s'.

(** Calls that only ask. *)
Definition asks (c : qcall K F T N) : bool := match c with Api _ => false | _ => true end.
Definition asks_for_text (c : qcall K F T N) : bool :=
  match c with PrintVariable _ | SaveAsXml _ _ => true | _ => false end.
(** The arguments of a call are computed from what can be told apart only. *)
Definition fair (RK : K -> K -> Prop) (RF : F -> F -> Prop) (c : qcall K F T N) : Prop :=
  match c with Api f => forall s s', same_store RK RF s s' -> f s = f s' | _ => True end.
End Meaning.

Section Listing.
Context {K F T N : Type}.

(** The line that opens the section of the variables of the kind of [v]. *)
Definition section_of (show : nat -> string) (s : store K F T N) (v : var K F T N) : string :=
  match v with
  | VarKart _ => "Type kart_6dof: " +:+ show (size (t_kart s)) +:+ " variables"
  | VarF1 _ => "Type f1_3dof: " +:+ show (size (t_f1 s)) +:+ " variables"
  | VarTrack _ => "Type tracks: " +:+ show (size (t_track s)) +:+ " variables"
  | VarScalar _ => "Type scalar: " +:+ show (size (t_scalar s)) +:+ " variables"
  | VarVector _ => "Type vector: " +:+ show (size (t_vector s)) +:+ " variables"
  end.
(** What the line of the variable [n] with value [v] says: its name, for vectors also the size. *)
Definition listed_as (show : nat -> string) (n : string) (v : var K F T N) : string :=
  match v with VarVector l => n +:+ " (" +:+ show (length l) +:+ ")" | _ => n end.

(** The same kind and, for vectors, the same size. *)
Definition same_kind (v w : var K F T N) : Prop :=
  match v, w with
  | VarKart _, VarKart _ | VarF1 _, VarF1 _ | VarTrack _, VarTrack _ | VarScalar _, VarScalar _ => True
  | VarVector l, VarVector l' => length l = length l'
  | _, _ => False
  end.

(** The text of a variable. *)
Definition text_of (qe : qenv K F T N) (v : var K F T N) : string :=
  match v with
  | VarKart k => q_kart_xml qe k | VarF1 c => q_f1_xml qe c | VarTrack t => q_track_xml qe t
  | VarScalar x => q_show_number qe x | VarVector l => q_show_vector qe l
  end.

(** How sizes are written: on one line, without brackets, differently for different sizes. *)
Record writes_sizes (show : nat -> string) : Prop := {
  w_line : forall k, one_line (show k);
  w_bracket : forall k, no_bracket (show k);
  w_inj : forall k k', show k = show k' -> k = k' }.
End Listing.
