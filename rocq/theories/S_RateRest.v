(** What the theorems on laps with controls at rest say. *)
From Coq Require Import Reals List.
Import ListNotations.
Local Open Scope R_scope.

(** The lap with the same rates [w] at each point. *)
Definition rated {P : Type} (w : list R) (pts : list (R * P)) : list (R * (P * list R)) := map (fun p => (fst p, (snd p, w))) pts.
