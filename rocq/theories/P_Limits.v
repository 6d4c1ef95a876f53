(** Property theorem C118: corrections of the track limits. *)
From stdpp Require Import base strings gmap list.
From Verif Require Import S_Regex M_Store S_Store M_Fleet S_Fleet L_Fleet P_Fleet M_Limits S_Limits.

Section Theorems.
Context {M N P B : Type} (plus : N -> N -> N).
Context (poly : list N -> list N -> option P) (eval : P -> N -> N).
Notation T := (ltrack P B).
Implicit Types (p : parts M B N) (s : store (vehicle M T) (vehicle M T) T N) (t : T).
Notation env_of p t0 := (fleet_env (with_limits poly p t0)).

Lemma step_correction p t0 s n t c s1 r : corrects_or_unrelated n c -> holds s n (VarTrack t) ->
  step (env_of p t0) s c = (s1, r) ->
  holds s1 n (VarTrack (LTrack (tk_rest t) (tk_wl t) (tk_wr t)
    (correction_after poly n "left" (tk_wl_correction t) [c]) (correction_after poly n "right" (tk_wr_correction t) [c]))).
Proof.
  intros [(side & sd & wd & ->)|U] Ht E.
  - cbn [step] in E. unfold track_set_limit in E. cbn [holds] in Ht. rewrite Ht in E.
    cbn [fleet_env e_track_limit with_limits p_limit] in E. unfold correct_limit in E.
    cbn [correction_after]. destruct t as [b wl wr cl cr]. cbn [tk_rest tk_wl tk_wr tk_wl_correction tk_wr_correction] in *.
    destruct (String.eqb_spec side "left") as [->|Nl].
    + rewrite decide_True by auto. rewrite decide_False by (intros [_ H]; discriminate H).
      destruct (poly sd wd) as [q|]; injection E as <- <-; cbn [holds set_track t_track]; now rewrite lookup_insert.
    + rewrite decide_False by (intros [_ H]; congruence). destruct (String.eqb_spec side "right") as [->|Nr].
      * rewrite decide_True by auto.
        destruct (poly sd wd) as [q|]; injection E as <- <-; cbn [holds set_track t_track]; now rewrite lookup_insert.
      * rewrite decide_False by (intros [_ H]; congruence). injection E as <- <-. exact Ht.
  - assert (Hs : holds s1 n (VarTrack t)).
    { apply (L_StoreOut.same_at_holds s s1 n); [|exact Ht]. exact (L_StoreOut.step_frame _ _ c _ _ n U E). }
    destruct t as [b wl wr cl cr]. cbn [tk_rest tk_wl tk_wr tk_wl_correction tk_wr_correction].
    assert (C : forall side q, correction_after poly n side q [c] = q).
    { intros side q. destruct c; try reflexivity. cbn [correction_after]. cbn [unrelated] in U.
      rewrite decide_False; [reflexivity|]. intros [H _]. congruence. }
    now rewrite !C.
Qed.

Lemma correction_cons (n side : string) (q : P) (c : call (vehicle M T) (vehicle M T) T N) cs :
  correction_after poly n side q (c :: cs) = correction_after poly n side (correction_after poly n side q [c]) cs.
Proof. now destruct c. Qed.

Lemma run_corrections p t0 n cs : forall s t s' rs, Forall (corrects_or_unrelated n) cs -> holds s n (VarTrack t) ->
  run (env_of p t0) s cs = (s', rs) ->
  holds s' n (VarTrack (LTrack (tk_rest t) (tk_wl t) (tk_wr t)
    (correction_after poly n "left" (tk_wl_correction t) cs) (correction_after poly n "right" (tk_wr_correction t) cs))).
Proof.
  induction cs as [|c cs IH]; intros s t s' rs F Ht E.
  - cbn [run] in E. injection E as <- _. now destruct t.
  - cbn [run] in E. destruct (step (env_of p t0) s c) as [s1 r] eqn:E1. destruct (run (env_of p t0) s1 cs) as [s2 rs'] eqn:E2.
    injection E as <- _. apply Forall_cons in F as [Fc F].
    pose proof (IH s1 _ s2 rs' F (step_correction p t0 s n t c s1 r Fc Ht E1) E2) as H.
    rewrite (correction_cons n "left" _ c cs), (correction_cons n "right" _ c cs). exact H.
Qed.

(** ** C118 *)

(** Whatever happens in between, the limits of a track are its widths plus, on each side, the last
    correction accepted for that side. *)
Theorem C118_limits_after_history : forall p t0 s n t cs s' rs,
  holds s n (VarTrack t) -> Forall (corrects_or_unrelated n) cs -> run (env_of p t0) s cs = (s', rs) ->
  exists t', holds s' n (VarTrack t') /\ forall x,
    left_track_limit plus eval t' x = plus (eval (tk_wl t) x) (eval (correction_after poly n "left" (tk_wl_correction t) cs) x) /\
    right_track_limit plus eval t' x = plus (eval (tk_wr t) x) (eval (correction_after poly n "right" (tk_wr_correction t) cs) x).
Proof.
  intros p t0 s n t cs s' rs Ht F E. eexists. split; [exact (run_corrections p t0 n cs s t s' rs F Ht E)|].
  intro x. split; reflexivity.
Qed.

(** A call that throws leaves every variable as it was; one that returns was for an existing
    track, a known side and data that make a polynomial. *)
Theorem C118_reported : forall p t0 s n side sd wd s' r,
  step (env_of p t0) s (TrackSetLimit n side sd wd) = (s', r) ->
  (r = Ret VUnit <-> (exists t, holds s n (VarTrack t)) /\ (side = "left" \/ side = "right") /\ poly sd wd <> None) /\
  (r = Ret VUnit \/ r = Exc) /\
  (r <> Ret VUnit -> forall m v, holds s' m v <-> holds s m v).
Proof.
  intros p t0 s n side sd wd s' r E. cbn [step] in E. unfold track_set_limit in E.
  destruct (t_track s !! n) as [t|] eqn:Ht.
  2:{ injection E as <- <-. split; [|split; [now right|reflexivity]]. split; [discriminate|].
      intros ((t & H) & _). cbn [holds] in H. congruence. }
  assert (A : exists t, holds s n (VarTrack t)) by (exists t; exact Ht).
  assert (Same : forall m v, holds (set_track s (<[n:=t]> (t_track s))) m v <-> holds s m v).
  { intros m v. rewrite insert_id by exact Ht. now destruct s, v. }
  cbn [fleet_env e_track_limit with_limits p_limit] in E. unfold correct_limit in E.
  destruct (String.eqb_spec side "left") as [->|Nl]; [|destruct (String.eqb_spec side "right") as [->|Nr]].
  - destruct (poly sd wd) as [q|]; injection E as <- <-; cbn [ret_or_exc].
    + split; [|split; [now left|congruence]]. split; [|reflexivity]. intros _. split; [exact A|]. split; [now left|discriminate].
    + split; [|split; [now right|intros _; exact Same]]. split; [discriminate|]. intros (_ & _ & H). congruence.
  - destruct (poly sd wd) as [q|]; injection E as <- <-; cbn [ret_or_exc].
    + split; [|split; [now left|congruence]]. split; [|reflexivity]. intros _. split; [exact A|]. split; [now right|discriminate].
    + split; [|split; [now right|intros _; exact Same]]. split; [discriminate|]. intros (_ & _ & H). congruence.
  - injection E as <- <-. split; [|split; [now right|reflexivity]]. split; [discriminate|].
    intros (_ & [H|H] & _); congruence.
Qed.

(** Lengths and arrays downloaded from a track do not depend on its corrections. *)
Theorem C118_downloads_unchanged : forall p t0 s n t cs s' rs,
  holds s n (VarTrack t) -> Forall (corrects_or_unrelated n) cs -> run (env_of p t0) s cs = (s', rs) ->
  (step (env_of p t0) s' (TrackDownloadLength n)).2 = (step (env_of p t0) s (TrackDownloadLength n)).2 /\
  forall len v, (step (env_of p t0) s' (TrackDownloadData n len v)).2 = (step (env_of p t0) s (TrackDownloadData n len v)).2.
Proof.
  intros p t0 s n t cs s' rs Ht F E. pose proof (run_corrections p t0 n cs s t s' rs F Ht E) as H.
  cbn [holds] in H, Ht. split.
  - cbn [step snd]. unfold track_download_length. now rewrite H, Ht.
  - intros len v. cbn [step snd]. unfold track_download_data. now rewrite H, Ht.
Qed.

(** A vehicle put on the track races between these limits, and goes on doing so if the track is
    corrected later. *)
Theorem C118_vehicle_uses_the_limits : forall p t0 s n t cs s1 rs v s2 later s3 rs',
  holds s n (VarTrack t) -> Forall (corrects_or_unrelated n) cs -> run (env_of p t0) s cs = (s1, rs) ->
  (exists w, has_vehicle s1 v w) -> step (env_of p t0) s1 (VehicleChangeTrack v n) = (s2, Ret VUnit) ->
  Forall (keeps_track v) later -> run (env_of p t0) s2 later = (s3, rs') ->
  exists w, has_vehicle s3 v w /\ forall tr x, tr = track_ad w \/ tr = track_scalar w ->
    left_track_limit plus eval tr x = plus (eval (tk_wl t) x) (eval (correction_after poly n "left" (tk_wl_correction t) cs) x) /\
    right_track_limit plus eval tr x = plus (eval (tk_wr t) x) (eval (correction_after poly n "right" (tk_wr_correction t) cs) x).
Proof.
  intros p t0 s n t cs s1 rs v s2 later s3 rs' Ht F E Hv E2 Fl E3.
  pose proof (run_corrections p t0 n cs s t s1 rs F Ht E) as H.
  destruct (C89_vehicle_keeps_its_track _ s1 v n _ s2 later s3 rs' H Hv E2 Fl E3) as (w & Hw & Ha & Hs).
  exists w. split; [exact Hw|]. intros tr x [->| ->]; [rewrite Ha|rewrite Hs]; split; reflexivity.
Qed.
End Theorems.

(** Cases. Polynomials are pairs of lists, evaluated as the first value. *)
Definition poly0 (sd wd : list nat) : option (list nat * list nat) :=
  if decide (length sd = length wd /\ sd <> []) then Some (sd, wd) else None.
Definition eval0 (q : list nat * list nat) (x : nat) : nat := hd 0 q.2.
Notation T0 := (ltrack (list nat * list nat) nat).
Notation lcall0 := (call (vehicle nat T0) (vehicle nat T0) T0 nat).
Definition track0 : T0 := new_ltrack ([], []) 2 ([0], [5]) ([0], [6]).
Definition lstore0 := (run (fleet_env (with_limits poly0 parts0 track0)) empty_store
  [CreateTrackFromXml "track" (Some (TrackFile "discrete" (Some track0))); CreateVehicleEmpty "car" "f1-3dof"]).1.
Definition lcalls0 : list lcall0 :=
  [TrackSetLimit "track" "left" [0] [1]; CopyVariable "track" "other"; TrackSetLimit "track" "right" [0] [2];
   TrackSetLimit "other" "left" [0] [100]; TrackSetLimit "track" "left" [0] [3]; TrackSetLimit "track" "middle" [0] [9];
   TrackSetLimit "track" "left" [0] []; VehicleChangeTrack "car" "track"].
Definition lstore1 := (run (fleet_env (with_limits poly0 parts0 track0)) lstore0 lcalls0).1.
Definition lstore2 := (run (fleet_env (with_limits poly0 parts0 track0)) lstore1 [TrackSetLimit "track" "left" [0] [50]]).1.
Definition corrected0 : T0 := LTrack 2 ([0], [5]) ([0], [6]) ([0], [3]) ([0], [2]).
Example C118_case : holds lstore0 "track" (VarTrack track0) /\ Forall (corrects_or_unrelated "track") lcalls0 /\
  exists t w, holds lstore1 "track" (VarTrack t) /\ left_track_limit plus eval0 t 0 = 8 /\ right_track_limit plus eval0 t 0 = 8 /\
    holds lstore2 "car" (VarF1 w) /\ left_track_limit plus eval0 (track_ad w) 0 = 8 /\
    Forall (keeps_track (M:=nat) (T:=T0) (N:=nat) "car") [TrackSetLimit "track" "left" [0] [50]].
Proof.
  split; [vm_compute; reflexivity|]. split.
  - repeat (apply Forall_cons; split); try (apply Forall_nil; exact I);
      try (left; eexists _, _, _; reflexivity); right; discriminate.
  - exists corrected0, (Vehicle 1 1 1 1 corrected0 corrected0).
    split; [vm_compute; reflexivity|]. split; [reflexivity|]. split; [reflexivity|].
    split; [vm_compute; reflexivity|]. split; [reflexivity|]. apply Forall_cons. split; [exact I|apply Forall_nil; exact I].
Qed.

Print Assumptions C118_limits_after_history.
Print Assumptions C118_reported.
Print Assumptions C118_downloads_unchanged.
Print Assumptions C118_vehicle_uses_the_limits.
