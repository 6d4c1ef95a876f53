(** Specification for C118. *)
From stdpp Require Import base strings gmap list.
From Verif Require Import M_Store S_Store M_Fleet M_Limits.

Section Spec.
Context {M N P B : Type} (poly : list N -> list N -> option P).
Notation lcall := (call (vehicle M (ltrack P B)) (vehicle M (ltrack P B)) (ltrack P B) N).

(** The correction in force on a side of track [n] after some calls: the last one given for that
    side and accepted, [q] if there was none. *)
Fixpoint correction_after (n side : string) (q : P) (cs : list lcall) : P :=
  match cs with
  | [] => q
  | TrackSetLimit m side' sd wd :: cs' =>
      correction_after n side
        (if decide (m = n /\ side' = side) then match poly sd wd with Some q' => q' | None => q end else q) cs'
  | _ :: cs' => correction_after n side q cs'
  end.

(** The call corrects the limits of track [n], on either side or on one that does not exist, or
    has nothing to do with it. *)
Definition corrects_or_unrelated (n : string) (c : lcall) : Prop :=
  (exists side sd wd, c = TrackSetLimit n side sd wd) \/ unrelated c n.
End Spec.
