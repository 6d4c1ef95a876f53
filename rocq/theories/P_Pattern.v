(** C130: patterns of delete_variable with alternatives, groups, repetitions and quoting.
    [K F T N] are the types of karts, f1 cars, tracks and numbers. *)
From stdpp Require Import base strings gmap list.
From Coq Require Import ZArith Ascii.
From Verif Require Import M_Regex S_Regex L_Regex M_Store S_Store L_Store L_StoreThm S_Pattern L_Pattern P_Store.
Local Open Scope char_scope.

Section Theorems.
Context {K F T N : Type}.
Implicit Types (e : env K F T N) (s : store K F T N).

(** Whatever the pattern, exactly the names it stands for are removed. *)
Theorem C130_pattern : forall e s a, alts_legal a ->
  exists s', step e s (DeleteVariable (pattern_text a)) = (s', Ret VUnit) /\
    forall n v, holds s' n v <-> holds s n v /\ ~ stands_for a n.
Proof.
  intros e s a H. destruct (compile_pattern a H) as (re & Ec & Hre). simpl. unfold delete_variable. rewrite Ec.
  eexists; split; [reflexivity|]. intros n v. rewrite erase_holds, <- not_true_iff_false, Hre. reflexivity.
Qed.

(** A name without a star is removed, and alone, by quoting its special characters. *)
Theorem C130_quoted_name_partial : forall e s n, ~ List.In "*" (list_ascii_of_string n) ->
  exists s', step e s (DeleteVariable (quoted_name n)) = (s', Ret VUnit) /\
    forall m v, holds s' m v <-> holds s m v /\ m <> n.
Proof.
  intros e s n H. destruct (compile_quoted n H) as (re & Ec & Hre). simpl. unfold delete_variable. rewrite Ec.
  eexists; split; [reflexivity|]. intros m v. rewrite erase_holds, <- not_true_iff_false, Hre. reflexivity.
Qed.

(** A text that is no pattern is refused and nothing is removed: a parenthesis that is not
    closed or not opened, or a repetition of nothing. *)
Theorem C130_malformed : forall e s a rest c, alts_legal a -> c = "+" \/ c = "?" ->
  Forall (fun text => step e s (DeleteVariable (string_of_list_ascii text)) = (s, Exc))
    ["(" :: alts_text a; alts_text a ++ ")" :: rest; alts_text a ++ "|" :: c :: rest; c :: rest].
Proof.
  intros e s a rest c H C.
  pose proof (compile_open a H) as E1. pose proof (compile_close a rest H) as E2.
  destruct (compile_nothing_to_repeat a rest c H C) as [E3 E4].
  repeat constructor; unfold step, delete_variable; rewrite ?E1, ?E2, ?E3, ?E4; reflexivity.
Qed.
End Theorems.

(** A name with a star cannot be removed by quoting it; other variables go instead. *)
Theorem C130_quoted_star_refuted : exists s n m v w,
  holds s n v /\ holds s m w /\ n <> m /\
  let '(s', res) := step env0 s (DeleteVariable (quoted_name n)) in
  res = Ret VUnit /\ holds s' n v /\ free s' m.
Proof.
  exists (run env0 empty0 [CreateScalar "a*" 1; CreateScalar "a" 2]).1, "a*"%string, "a"%string, (VarScalar 1), (VarScalar 2).
  split; [vm_compute; reflexivity|]. split; [vm_compute; reflexivity|]. split; [discriminate|].
  destruct (step _ _ _) as [s' res] eqn:E. vm_compute in E. injection E as <- <-.
  split; [reflexivity|]. split; [vm_compute; reflexivity|]. intros [] H; vm_compute in H; discriminate.
Qed.

(** *** The hypotheses are met *)
(** The pattern "run/(u|ch+)\.x?*". *)
Definition pattern0 : alts :=
  AOne (SThen (SThen (SThen (SThen (SThen (SThen (SThen (SThen SNil (TChar "r")) (TChar "u")) (TChar "n")) (TChar "/"))
    (TGroup (AOr (AOne (SThen SNil (TChar "u"))) (SThen (SThen SNil (TChar "c")) (TRepeat (TChar "h"))))))
    (TQuote ".")) (TOptional (TChar "x"))) TRun).
Example C130_case : alts_legal pattern0 /\ pattern_text pattern0 = "run/(u|ch+)\.x?*"%string /\
  stands_for pattern0 "run/chhh.y" /\
  let s := (run env0 empty0 [CreateScalar "run/u.x" 1; CreateScalar "run/chh.y" 2; CreateScalar "run/c.x" 3;
                             CreateScalar "run/u_x" 4]).1 in
  let s' := (step env0 s (DeleteVariable (pattern_text pattern0))).1 in
  free s' "run/u.x" /\ free s' "run/chh.y" /\ holds s' "run/c.x" (VarScalar 3) /\ holds s' "run/u_x" (VarScalar 4).
Proof.
  split; [|split; [reflexivity|split]].
  - cbn. repeat split; try solve [intros P; cbn in P; repeat (destruct P as [P|P]; [discriminate P|]); exact P].
    + intros P. apply alnum_spec in P. discriminate P.
    + discriminate.
  - destruct (compile_pattern pattern0) as (r & E & L).
    + cbn. repeat split; try solve [intros P; cbn in P; repeat (destruct P as [P|P]; [discriminate P|]); exact P].
      * intros P. apply alnum_spec in P. discriminate P.
      * discriminate.
    + apply L. vm_compute in E. injection E as <-. vm_compute. reflexivity.
  - split; [intros [] H; vm_compute in H; discriminate|]. split; [intros [] H; vm_compute in H; discriminate|].
    split; vm_compute; reflexivity.
Qed.

Print Assumptions C130_pattern.
Print Assumptions C130_quoted_name_partial.
Print Assumptions C130_malformed.
Print Assumptions C130_quoted_star_refuted.
