(** Copies of vehicles. Properties C116, C117. *)
From Coq Require Import Arith Bool Lia.
From Coq Require Import List.
From Verif Require Import M_Controls M_Frames S_Frames.
Import ListNotations.

Section Proofs.
Context {A : Type} (compose : A -> A -> A) (origin : A).

Lemma slot_eqb_spec a b : reflect (a = b) (slot_eqb a b).
Proof. destruct a, b; constructor; congruence. Qed.
Lemma addr_eqb_spec (a b : addr) : reflect (a = b) (addr_eqb a b).
Proof.
  destruct a as [i s], b as [j t]. unfold addr_eqb. cbn [fst snd].
  destruct (Nat.eqb_spec i j), (slot_eqb_spec s t); constructor; congruence.
Qed.

(** Every vehicle is either dead or complete, with the pointers of its own frames. *)
Definition whole (m : mem A) (id : nat) (own : slot -> A) : Prop :=
  forall s, m (id, s) = Some (MkFrame (own s) (option_map (pair id) (carried_by s))).
Definition sound (m : mem A) : Prop :=
  forall id, fresh m id \/ exists own, own Inertial = origin /\ whole m id own.

Lemma freshb_fresh (m : mem A) id : freshb m id = true <-> fresh m id.
Proof.
  unfold freshb, fresh. rewrite forallb_forall. split; intros H s.
  - specialize (H s). destruct (m (id, s)); [|reflexivity]. exfalso.
    assert (false = true); [|discriminate]. apply H. destruct s; cbn; tauto.
  - intros _. now rewrite H.
Qed.
Lemma living_whole (m : mem A) id : sound m -> livingb m id = true -> exists own, own Inertial = origin /\ whole m id own.
Proof.
  intros H L. destruct (H id) as [F|W]; [|exact W]. unfold livingb in L. now rewrite F in L.
Qed.

Lemma execs_app (m : mem A) a b : execs m (a ++ b) = bind (execs m a) (fun m' => execs m' b).
Proof. revert m. induction a as [|c a IH]; intro m; [reflexivity|]. cbn [app execs]. destruct (exec m c); cbn [bind]; [apply IH|reflexivity|reflexivity]. Qed.

Ltac crunch W := repeat (progress (
  unfold load, store, addr_eqb; cbn [execs exec bind app fst snd slot_eqb pose parent car_copy car_ctor axle_copy axle_ctor];
  rewrite ?Nat.eqb_refl; repeat match goal with E : Nat.eqb _ _ = false |- _ => progress rewrite ?E end;
  cbn [andb]; rewrite ?W)).

(** The result of the copy operations. *)
Lemma car_copy_ok m id src own : whole m src own ->
  exists m', execs m (car_copy origin id src) = Ok m' /\
    whole m' id (fun s => match s with Inertial => origin | _ => own s end) /\
    (forall j s, j <> id -> m' (j, s) = m (j, s)).
Proof.
  intro W.
  destruct (Nat.eq_dec id src) as [<-|N].
  - eexists. split; [|split].
    + crunch W. reflexivity.
    + intro s. unfold store, addr_eqb; cbn [fst snd slot_eqb]. rewrite Nat.eqb_refl. cbn [andb].
      destruct s; reflexivity.
    + intros j s Hj. unfold store, addr_eqb; cbn [fst snd slot_eqb].
      destruct (Nat.eqb_spec id j); [congruence|]. reflexivity.
  - assert (E : Nat.eqb id src = false) by now apply Nat.eqb_neq.
    eexists. split; [|split].
    + crunch W. reflexivity.
    + intro s. unfold store, addr_eqb; cbn [fst snd slot_eqb]. rewrite Nat.eqb_refl. cbn [andb].
      destruct s; reflexivity.
    + intros j s Hj. unfold store, addr_eqb; cbn [fst snd slot_eqb].
      destruct (Nat.eqb_spec id j); [congruence|]. reflexivity.
Qed.

Lemma car_ctor_ok m id tmp p : id <> tmp ->
  exists m', execs m (car_ctor origin id tmp p) = Ok m' /\
    whole m' id (fun s => match s with Inertial => origin | _ => p s end) /\
    (forall j s, j <> id -> j <> tmp -> m' (j, s) = m (j, s)).
Proof.
  intro N.
  assert (E : Nat.eqb id tmp = false) by now apply Nat.eqb_neq.
  assert (E' : Nat.eqb tmp id = false) by (apply Nat.eqb_neq; congruence).
  eexists. split; [|split].
  - crunch E. reflexivity.
  - intro s. unfold store, addr_eqb; cbn [fst snd slot_eqb]. rewrite ?E, ?E', !Nat.eqb_refl. cbn [andb].
    destruct s; reflexivity.
  - intros j s H1 H2. unfold store, addr_eqb; cbn [fst snd slot_eqb].
    destruct (Nat.eqb_spec id j); [congruence|]. destruct (Nat.eqb_spec tmp j); [congruence|]. reflexivity.
Qed.

Lemma kill_other (m : mem A) tmp j s : j <> tmp -> kill m tmp (j, s) = m (j, s).
Proof. intro H. unfold kill. cbn [fst]. destruct (Nat.eqb_spec tmp j); congruence. Qed.
Lemma kill_self (m : mem A) tmp s : kill m tmp (tmp, s) = None.
Proof. unfold kill. cbn [fst]. now rewrite Nat.eqb_refl. Qed.

Lemma sound_change m m' id own : sound m -> own Inertial = origin -> whole m' id own ->
  (forall j s, j <> id -> m' (j, s) = m (j, s)) -> sound m'.
Proof.
  intros S E W F j. destruct (Nat.eq_dec j id) as [->|N]; [right; now exists own|].
  destruct (S j) as [H|(o & Ho & H)]; [left|right; exists o; split; [exact Ho|]]; intro s; rewrite F by assumption; apply H.
Qed.

(** One operation of the program: only the vehicle it names changes. *)
Lemma step_sound m o : sound m ->
  step (car_ctor origin) (car_copy origin) m o <> UB /\
  forall m', step (car_ctor origin) (car_copy origin) m o = Ok m' ->
    sound m' /\ (forall id own, leaves_alone id o -> whole m id own -> whole m' id own).
Proof.
  intro S. destruct o as [id tmp p|id src|id src|id|id s p]; cbn [step].
  - destruct (freshb m id) eqn:F1; [|split; discriminate]. destruct (freshb m tmp) eqn:F2; [|split; discriminate].
    destruct (Nat.eqb_spec id tmp) as [|N]; [split; discriminate|]. cbn [andb negb guard].
    destruct (car_ctor_ok m id tmp p N) as (m1 & -> & W & Fr). cbn [bind].
    split; [discriminate|]. intros m' H. injection H as <-. apply freshb_fresh in F1, F2. split.
    + intro j. destruct (Nat.eq_dec j tmp) as [->|Nj]; [left; intro s; apply kill_self|].
      destruct (Nat.eq_dec j id) as [->|Nj'].
      * right. exists (fun s => match s with Inertial => origin | _ => p s end). split; [reflexivity|].
        intro s. rewrite kill_other by exact N. apply W.
      * destruct (S j) as [H|(own & Ho & H)]; [left|right; exists own; split; [exact Ho|]];
          intro s; rewrite kill_other, Fr by assumption; apply H.
    + intros j own Hj Wj s. cbn [leaves_alone] in Hj.
      assert (j <> tmp) by (intros ->; specialize (Wj Road); rewrite F2 in Wj; discriminate).
      rewrite kill_other, Fr by (try assumption; congruence). apply Wj.
  - destruct (freshb m id) eqn:F1; [|split; discriminate]. destruct (livingb m src) eqn:L; [|split; discriminate].
    cbn [andb guard]. destruct (living_whole m src S L) as (own & Ho & W).
    destruct (car_copy_ok m id src own W) as (m1 & -> & W1 & Fr). split; [discriminate|].
    intros m' H. injection H as <-. split; [exact (sound_change m m1 id _ S eq_refl W1 Fr)|].
    intros j o Hj Wj s. rewrite Fr by (cbn in Hj; congruence). apply Wj.
  - destruct (livingb m id) eqn:L'; [|split; discriminate]. destruct (livingb m src) eqn:L; [|split; discriminate].
    cbn [andb guard]. destruct (living_whole m src S L) as (own & Ho & W).
    destruct (car_copy_ok m id src own W) as (m1 & -> & W1 & Fr). split; [discriminate|].
    intros m' H. injection H as <-. split; [exact (sound_change m m1 id _ S eq_refl W1 Fr)|].
    intros j o Hj Wj s. rewrite Fr by (cbn in Hj; congruence). apply Wj.
  - destruct (livingb m id) eqn:L; [|split; discriminate]. cbn [guard]. split; [discriminate|].
    intros m' H. injection H as <-. split.
    + intro j. destruct (Nat.eq_dec j id) as [->|N]; [left; intro s; apply kill_self|].
      destruct (S j) as [H|(o & Ho & H)]; [left|right; exists o; split; [exact Ho|]];
        intro s; rewrite kill_other by assumption; apply H.
    + intros j o Hj Wj s. rewrite kill_other by (cbn in Hj; congruence). apply Wj.
  - destruct (livingb m id) eqn:L; [|split; discriminate].
    destruct (slot_eqb_spec s Inertial) as [|N]; [split; discriminate|]. cbn [andb negb guard].
    destruct (living_whole m id S L) as (own & Ho & W).
    assert (Ws : m (id, s) = Some (MkFrame (own s) (option_map (pair id) (carried_by s)))) by apply W.
    unfold load. split; [rewrite Ws; discriminate|]. intros m' H. rewrite Ws in H. cbn [guard bind parent] in H. injection H as <-.
    assert (Fr : forall j t f, j <> id -> store m (id, s) f (j, t) = m (j, t)).
    { intros j t f Nj. unfold store, addr_eqb. cbn [fst]. destruct (Nat.eqb_spec id j); [congruence|reflexivity]. }
    split.
    + eapply (sound_change m _ id (fun t => if slot_eqb s t then p else own t) S).
      * destruct (slot_eqb_spec s Inertial); [contradiction|exact Ho].
      * intro t. unfold store, addr_eqb. cbn [fst snd]. rewrite Nat.eqb_refl. cbn [andb].
        destruct (slot_eqb_spec s t) as [<-|]; [reflexivity|apply W].
      * intros j t Nj. now apply Fr.
    + intros j o Hj Wj t. rewrite Fr by (cbn in Hj; congruence). apply Wj.
Qed.

Lemma run_sound ops : forall m, sound m ->
  run_cars origin m ops <> UB /\
  forall m', run_cars origin m ops = Ok m' ->
    sound m' /\ (forall id own, Forall (leaves_alone id) ops -> whole m id own -> whole m' id own).
Proof.
  induction ops as [|o ops IH]; intros m S; unfold run_cars; cbn [run].
  - split; [discriminate|]. intros m' H. injection H as <-. split; [exact S|]. intros; assumption.
  - destruct (step_sound m o S) as [U K]. destruct (step (car_ctor origin) (car_copy origin) m o) as [m1| |]; [|split; discriminate|contradiction].
    cbn [bind]. destruct (K m1 eq_refl) as [S1 K1]. destruct (IH m1 S1) as [U2 K2]. split; [exact U2|].
    intros m' H. destruct (K2 m' H) as [S' K']. split; [exact S'|].
    intros id own F W. inversion F; subst. apply K'; [assumption|]. now apply K1.
Qed.

Lemma sound_nothing : sound (@nothing A).
Proof. intro id. left. intro s. reflexivity. Qed.

Lemma absolute_whole m id own : whole m id own ->
  forall s x, absolute compose m (id, s) x <-> x = pose_of_car compose own s.
Proof.
  intro W.
  assert (I : forall x, absolute compose m (id, Inertial) x <-> x = own Inertial).
  { intro x. split; intro H.
    - inversion H as [a f Hf Hp|a f b y Hf Hp Hy]; subst; rewrite W in Hf; injection Hf as <-; [reflexivity|discriminate Hp].
    - subst. exact (absolute_root compose m (id, Inertial) _ (W Inertial) eq_refl). }
  assert (C : forall s t v, carried_by s = Some t -> (forall x, absolute compose m (id, t) x <-> x = v) ->
                forall x, absolute compose m (id, s) x <-> x = compose v (own s)).
  { intros s t v Hs Ht x. split; intro H.
    - inversion H as [a f Hf Hp|a f b y Hf Hp Hy]; subst; rewrite W, Hs in Hf; injection Hf as <-; [discriminate Hp|].
      cbn [parent option_map] in Hp. injection Hp as <-. apply Ht in Hy. subst. reflexivity.
    - subst. apply (absolute_child compose m (id, s) (MkFrame (own s) (option_map (pair id) (carried_by s))) (id, t));
        [apply W|now rewrite Hs|now apply Ht]. }
  assert (R := C Road _ _ eq_refl I). assert (Ch := C Chassis _ _ eq_refl R).
  assert (FA := C FrontAxle _ _ eq_refl Ch). assert (RA := C RearAxle _ _ eq_refl Ch).
  intros s x. destruct s; [apply I|apply R|apply Ch|apply FA|apply (C FrontLeft _ _ eq_refl FA)|
    apply (C FrontRight _ _ eq_refl FA)|apply RA|apply (C RearLeft _ _ eq_refl RA)|apply (C RearRight _ _ eq_refl RA)].
Qed.

Lemma alive_whole m id s f : sound m -> m (id, s) = Some f -> exists own, own Inertial = origin /\ whole m id own.
Proof. intros S H. destruct (S id) as [F|W]; [rewrite F in H; discriminate|exact W]. Qed.

Lemma has_whole m id own : sound m -> has_poses m id own -> whole m id own /\ own Inertial = origin.
Proof.
  intros S H. destruct (H Road) as (f & Hf & _). destruct (alive_whole m id Road f S Hf) as (o & Ho & W).
  assert (E : forall s, o s = own s).
  { intro s. destruct (H s) as (g & Hg & <-). rewrite W in Hg. injection Hg as <-. reflexivity. }
  split; [intro s; rewrite <- E; apply W|now rewrite <- E].
Qed.

(** ** C116: copies of vehicles share nothing *)

(** In any program that creates, copies, assigns, moves and destroys vehicles, no frame is read
    after its destruction, and every frame of every living vehicle has one pose in the inertial
    frame: the one its own vehicle gives it. *)
Theorem C116_poses_of_a_car : forall ops,
  run_cars origin nothing ops <> UB /\
  forall m id own, run_cars origin nothing ops = Ok m -> has_poses m id own ->
  forall s x, absolute compose m (id, s) x <-> x = pose_of_car compose own s.
Proof.
  intro ops. destruct (run_sound ops nothing sound_nothing) as [U K]. split; [exact U|].
  intros m id own H Hp. destruct (K m H) as [S _]. apply absolute_whole. now apply has_whole.
Qed.

(** A copy, made or assigned, has the poses of its source. *)
Theorem C116_copy_has_the_same_poses : forall ops m id src o m',
  run_cars origin nothing ops = Ok m -> o = CopyNew id src \/ o = Assign id src ->
  run_cars origin m [o] = Ok m' ->
  forall s x, absolute compose m' (id, s) x <-> absolute compose m (src, s) x.
Proof.
  intros ops m id src o m' H Ho H' s x.
  destruct (run_sound ops nothing sound_nothing) as [_ K]. destruct (K m H) as [S _].
  assert (L : livingb m src = true /\ execs m (car_copy origin id src) = Ok m').
  { unfold run_cars in H'. cbn [run] in H'. destruct Ho as [->| ->]; cbn [step] in H'.
    - destruct (freshb m id); [|discriminate]. destruct (livingb m src); [|discriminate]. cbn [andb guard] in H'.
      split; [reflexivity|]. destruct (execs m _); cbn [bind] in H'; congruence.
    - destruct (livingb m id); [|discriminate]. destruct (livingb m src); [|discriminate]. cbn [andb guard] in H'.
      split; [reflexivity|]. destruct (execs m _); cbn [bind] in H'; congruence. }
  destruct L as [L E]. destruct (living_whole m src S L) as (own & Hi & W).
  destruct (car_copy_ok m id src own W) as (m1 & E1 & W1 & _). rewrite E in E1. injection E1 as <-.
  rewrite (absolute_whole m' id _ W1 s x), (absolute_whole m src own W s x).
  unfold pose_of_car. rewrite Hi. destruct s; reflexivity.
Qed.

(** Whatever is done afterwards to other vehicles, also to the ones a vehicle was copied from or
    to, its poses do not move. *)
Theorem C116_vehicles_are_independent : forall ops later m m' id s f,
  run_cars origin nothing ops = Ok m -> m (id, s) = Some f ->
  Forall (leaves_alone id) later -> run_cars origin m later = Ok m' ->
  forall t x, absolute compose m' (id, t) x <-> absolute compose m (id, t) x.
Proof.
  intros ops later m m' id s f H Hf Fl H' t x.
  destruct (run_sound ops nothing sound_nothing) as [_ K]. destruct (K m H) as [S _].
  destruct (alive_whole m id s f S Hf) as (own & _ & W).
  destruct (run_sound later m S) as [_ K2]. destruct (K2 m' H') as [_ K3].
  rewrite (absolute_whole m id own W t x), (absolute_whole m' id own (K3 id own Fl W) t x). reflexivity.
Qed.

(** ** C117: the model of one axle *)

(** The invariant while nothing is destroyed: an axle hangs from some living inertial frame. *)
Definition single (m : mem A) (id : nat) (own : slot -> A) : Prop :=
  m (id, Inertial) = Some (MkFrame origin None) /\ own Inertial = origin /\
  (exists j, m (j, Inertial) = Some (MkFrame origin None) /\ m (id, RearAxle) = Some (MkFrame (own RearAxle) (Some (j, Inertial)))) /\
  m (id, RearLeft) = Some (MkFrame (own RearLeft) (Some (id, RearAxle))) /\
  m (id, RearRight) = Some (MkFrame (own RearRight) (Some (id, RearAxle))).
Definition singles (m : mem A) : Prop := forall id, fresh m id \/ exists own, single m id own.

Lemma singles_change m m' id own : singles m -> single m' id own ->
  (forall j s, j <> id -> m' (j, s) = m (j, s)) -> singles m'.
Proof.
  intros S W F j. destruct (Nat.eq_dec j id) as [->|N]; [right; now exists own|].
  destruct (S j) as [H|(o & H0 & H1 & (k & H2 & H3) & H4 & H5)].
  - left. intro s. rewrite F by assumption. apply H.
  - right. exists o. unfold single. rewrite !F by assumption. split; [exact H0|]. split; [exact H1|]. split; [|split; assumption].
    exists k. split; [|exact H3]. destruct (Nat.eq_dec k id) as [->|Nk]; [apply W|]. now rewrite F.
Qed.

Ltac crunch2 := repeat (progress (
  unfold load, store, addr_eqb; cbn [execs exec bind app fst snd slot_eqb pose parent single_copy single_ctor axle_copy axle_ctor];
  rewrite ?Nat.eqb_refl; repeat match goal with E : Nat.eqb _ _ = false |- _ => progress rewrite ?E end;
  cbn [andb]; repeat match goal with E : ?m (_, _) = Some _ |- _ => progress rewrite ?E end)).

Lemma single_copy_ok m id src own : single m src own ->
  exists m', execs m (single_copy id src) = Ok m' /\ single m' id own /\
    (forall j s, j <> id -> m' (j, s) = m (j, s)).
Proof.
  intros (W0 & W1 & (k & W2 & W3) & W4 & W5).
  destruct (Nat.eq_dec id src) as [<-|N].
  - eexists. split; [crunch2; reflexivity|]. split.
    + unfold single. split; [crunch2; reflexivity|]. split; [exact W1|]. split; [|split; crunch2; reflexivity].
      exists k. split; [|crunch2; reflexivity]. destruct (Nat.eqb_spec id k) as [<-|Nk]; [crunch2; reflexivity|].
      apply Nat.eqb_neq in Nk. crunch2. reflexivity.
    + intros j s Hj. unfold store, addr_eqb; cbn [fst snd slot_eqb]. destruct (Nat.eqb_spec id j); [congruence|]. reflexivity.
  - assert (E : Nat.eqb id src = false) by now apply Nat.eqb_neq.
    eexists. split; [crunch2; reflexivity|]. split.
    + unfold single. split; [crunch2; reflexivity|]. split; [exact W1|]. split; [|split; crunch2; reflexivity].
      exists k. split; [|crunch2; reflexivity]. destruct (Nat.eqb_spec id k) as [<-|Nk]; [crunch2; reflexivity|].
      apply Nat.eqb_neq in Nk. crunch2. reflexivity.
    + intros j s Hj. unfold store, addr_eqb; cbn [fst snd slot_eqb]. destruct (Nat.eqb_spec id j); [congruence|]. reflexivity.
Qed.

Lemma single_ctor_ok m id p :
  exists m', execs m (single_ctor origin id p) = Ok m' /\ single m' id (fun s => match s with Inertial => origin | _ => p s end) /\
    (forall j s, j <> id -> m' (j, s) = m (j, s)).
Proof.
  eexists. split; [crunch2; reflexivity|]. split.
  - unfold single. split; [crunch2; reflexivity|]. split; [reflexivity|]. split; [|split; crunch2; reflexivity].
    exists id. split; crunch2; reflexivity.
  - intros j s Hj. unfold store, addr_eqb; cbn [fst snd slot_eqb]. destruct (Nat.eqb_spec id j); [congruence|]. reflexivity.
Qed.

Definition destroys (o : op A) : Prop := match o with Destroy _ => True | _ => False end.

Lemma living_single m id : singles m -> livingb m id = true -> exists own, single m id own.
Proof. intros H L. destruct (H id) as [F|W]; [|exact W]. unfold livingb in L. now rewrite F in L. Qed.

Lemma singles_run ops : forall m, singles m -> Forall (fun o => ~ destroys o) ops ->
  run_singles origin m ops <> UB /\ forall m', run_singles origin m ops = Ok m' -> singles m'.
Proof.
  induction ops as [|o ops IH]; intros m S F.
  - split; [discriminate|]. intros m' H. injection H as <-. exact S.
  - inversion F as [|? ? Ho F']; subst. unfold run_singles in *. cbn [run].
    assert (St : step (fun id _ p => single_ctor origin id p) single_copy m o <> UB /\
                 forall m1, step (fun id _ p => single_ctor origin id p) single_copy m o = Ok m1 -> singles m1).
    { destruct o as [id tmp p|id src|id src|id|id s p]; cbn [step].
      - destruct (freshb m id) eqn:F1; [|split; discriminate]. destruct (freshb m tmp) eqn:F2; [|split; discriminate].
        destruct (Nat.eqb_spec id tmp) as [|N]; [split; discriminate|]. cbn [andb negb guard].
        destruct (single_ctor_ok m id p) as (m1 & -> & W & Fr). cbn [bind]. split; [discriminate|].
        intros m2 H. injection H as <-. apply freshb_fresh in F2.
        pose proof (singles_change m m1 id _ S W Fr) as S1.
        assert (K : forall a, kill m1 tmp a = m1 a).
        { intros [j s]. destruct (Nat.eq_dec j tmp) as [->|Nj]; [|now apply kill_other].
          rewrite kill_self, Fr by congruence. symmetry. apply F2. }
        intro j. destruct (S1 j) as [Hj|(o & Hj)]; [left; intro s; rewrite K; apply Hj|right; exists o].
        unfold single. rewrite !K. destruct Hj as (? & ? & (k & ? & ?) & ? & ?).
        split; [assumption|]. split; [assumption|]. split; [|split; assumption]. exists k. rewrite K. now split.
      - destruct (freshb m id); [|split; discriminate]. destruct (livingb m src) eqn:L; [|split; discriminate].
        cbn [andb guard]. destruct (living_single m src S L) as (own & W).
        destruct (single_copy_ok m id src own W) as (m1 & -> & W1 & Fr). split; [discriminate|].
        intros m2 H. injection H as <-. exact (singles_change m m1 id own S W1 Fr).
      - destruct (livingb m id); [|split; discriminate]. destruct (livingb m src) eqn:L; [|split; discriminate].
        cbn [andb guard]. destruct (living_single m src S L) as (own & W).
        destruct (single_copy_ok m id src own W) as (m1 & -> & W1 & Fr). split; [discriminate|].
        intros m2 H. injection H as <-. exact (singles_change m m1 id own S W1 Fr).
      - exfalso. apply Ho. exact I.
      - destruct (livingb m id) eqn:L; [|split; discriminate].
        destruct (slot_eqb_spec s Inertial) as [|N]; [split; discriminate|]. cbn [andb negb guard].
        destruct (living_single m id S L) as (own & W0 & W1 & (k & W2 & W3) & W4 & W5).
        destruct (m (id, s)) as [g|] eqn:Es; [|split; discriminate]. unfold load. rewrite Es. cbn [guard bind parent].
        split; [discriminate|]. intros m2 H. inversion H; subst m2; clear H.
        assert (Fr : forall j t f, j <> id -> store m (id, s) f (j, t) = m (j, t)).
        { intros j t f Nj. unfold store, addr_eqb. cbn [fst]. destruct (Nat.eqb_spec id j); [congruence|reflexivity]. }
        eapply (singles_change m _ id (fun t => if slot_eqb s t then p else own t) S); [|intros j t Nj; now apply Fr].
        assert (Rd : forall t f, m (id, t) = Some f ->
                  store m (id, s) (MkFrame p (parent g)) (id, t) = Some (MkFrame (if slot_eqb s t then p else pose f) (parent f))).
        { intros t f Hf. unfold store, addr_eqb. cbn [fst snd]. rewrite Nat.eqb_refl. cbn [andb].
          destruct (slot_eqb_spec s t) as [<-|]; [rewrite Es in Hf; injection Hf as <-; reflexivity|rewrite Hf; now destruct f]. }
        assert (NI : slot_eqb s Inertial = false) by (destruct (slot_eqb_spec s Inertial); congruence).
        unfold single. rewrite (Rd Inertial _ W0), (Rd RearAxle _ W3), (Rd RearLeft _ W4), (Rd RearRight _ W5), NI. cbn [pose parent].
        split; [reflexivity|]. split; [exact W1|]. split; [|split; reflexivity].
        exists k. split; [|reflexivity]. destruct (Nat.eq_dec k id) as [->|Nk]; [rewrite (Rd Inertial _ W0), NI; reflexivity|now rewrite Fr]. }
    destruct St as [U K]. destruct (step _ _ m o) as [m1| |]; [|split; discriminate|contradiction].
    cbn [bind]. apply IH; [now apply K|exact F'].
Qed.

(** As long as no vehicle is destroyed, copies of the model of one axle behave as cars do. *)
Theorem C117_no_destruction_partial : forall ops, Forall (fun o => ~ destroys o) ops ->
  run_singles origin nothing ops <> UB /\
  forall m id f, run_singles origin nothing ops = Ok m -> m (id, RearAxle) = Some f ->
  exists own, (forall s f, m (id, s) = Some f -> In s [Inertial; RearAxle; RearLeft; RearRight] -> own s = pose f) /\
    (forall x, absolute compose m (id, RearAxle) x <-> x = compose (own Inertial) (own RearAxle)) /\
    (forall x, absolute compose m (id, RearLeft) x <-> x = compose (compose (own Inertial) (own RearAxle)) (own RearLeft)) /\
    (forall x, absolute compose m (id, RearRight) x <-> x = compose (compose (own Inertial) (own RearAxle)) (own RearRight)).
Proof.
  intros ops F. destruct (singles_run ops nothing) as [U K]; [intro id; left; intro s; reflexivity|exact F|].
  split; [exact U|]. intros m id f H Hf. destruct (K m H id) as [Fr|(own & W0 & W1 & (k & W2 & W3) & W4 & W5)].
  { rewrite Fr in Hf. discriminate. }
  exists own. split.
  { intros s g Hg Hs. destruct Hs as [<-|[<-|[<-|[<-|[]]]]]; [rewrite W0 in Hg|rewrite W3 in Hg|rewrite W4 in Hg|rewrite W5 in Hg];
      injection Hg as <-; cbn [pose]; congruence || exact W1. }
  assert (R : forall x, absolute compose m (k, Inertial) x <-> x = own Inertial).
  { intro x. rewrite W1. split; intro Hx.
    - inversion Hx as [a g Hg Hp|a g b y Hg Hp Hy]; subst; rewrite W2 in Hg; injection Hg as <-; [reflexivity|discriminate Hp].
    - subst. exact (absolute_root compose m (k, Inertial) _ W2 eq_refl). }
  assert (C : forall s b v q, m (id, s) = Some (MkFrame q (Some b)) -> (forall x, absolute compose m b x <-> x = v) ->
                forall x, absolute compose m (id, s) x <-> x = compose v q).
  { intros s b v q Hs Hb x. split; intro Hx.
    - inversion Hx as [a g Hg Hp|a g b' y Hg Hp Hy]; subst; rewrite Hs in Hg; injection Hg as <-; [discriminate Hp|].
      cbn [parent] in Hp. injection Hp as <-. apply Hb in Hy. subst. reflexivity.
    - subst. apply (absolute_child compose m (id, s) (MkFrame q (Some b)) b); [exact Hs|reflexivity|now apply Hb]. }
  pose proof (C RearAxle _ _ _ W3 R) as RA.
  exact (conj RA (conj (C RearLeft _ _ _ W4 RA) (C RearRight _ _ _ W5 RA))).
Qed.

(** Refuted: a copy that outlives its source has frames that hang from a dead one. *)
Theorem C117_outliving_copy_refuted : forall p, exists ops m, run_singles origin nothing ops = Ok m /\
  ops = [New 0 2 p; CopyNew 1 0; Destroy 0] /\
  livingb m 1 = true /\ forall s x, s = RearAxle \/ s = RearLeft \/ s = RearRight -> ~ absolute compose m (1, s) x.
Proof.
  intro p. eexists _, _. split; [|split; [reflexivity|]]; [reflexivity|].
  assert (RA : forall x, ~ absolute compose (fun b : addr => if (0 =? fst b)%nat then None else
     match run_singles origin nothing [New 0 2 p; CopyNew 1 0] with Ok m => m b | _ => None end) (1, RearAxle) x).
  { intros x H. inversion H as [a g Hg Hp|a g b y Hg Hp Hy]; subst; vm_compute in Hg; injection Hg as <-; [discriminate Hp|].
    injection Hp as <-. inversion Hy as [a g Hg _|a g b y' Hg _ _]; vm_compute in Hg; discriminate. }
  split; [reflexivity|]. intros s x Hs.
  destruct Hs as [->|[->| ->]]; intro H; [exact (RA x H)| |];
    (inversion H as [a g Hg Hp|a g b y Hg Hp Hy]; subst; vm_compute in Hg; injection Hg as <-; [discriminate Hp|];
     injection Hp as <-; exact (RA y Hy)).
Qed.
End Proofs.

(** A program: a car, a copy of it, a second car assigned from the copy; the first two are moved
    and destroyed. Poses are numbers that add up. *)
Definition sample_poses (s : slot) : nat :=
  match s with Inertial => 0 | Road => 1 | Chassis => 2 | FrontAxle => 4 | FrontLeft => 8 | FrontRight => 16
  | RearAxle => 32 | RearLeft => 64 | RearRight => 128 end.
Definition sample_program : list (op nat) :=
  [New 0 9 sample_poses; CopyNew 1 0; New 2 9 (fun _ => 7); Write 0 Road 1000; Assign 2 1; Assign 2 2; Destroy 0; Write 1 Chassis 500; Destroy 1].
Example C116_example : exists m, run_cars 0 nothing sample_program = Ok m /\ has_poses m 2 sample_poses /\
  absolute plus m (2, RearRight) 163 /\ (forall s, m (1, s) = None).
Proof.
  eexists. split; [vm_compute; reflexivity|].
  assert (H : has_poses (match run_cars 0 nothing sample_program with Ok m => m | _ => nothing end) 2 sample_poses).
  { intro s. destruct s; eexists; split; vm_compute; reflexivity. }
  split; [exact H|]. split.
  - apply (proj2 (C116_poses_of_a_car plus 0 sample_program) _ 2 sample_poses eq_refl H). reflexivity.
  - intro s. destruct s; reflexivity.
Qed.
Example C117_example : exists m, run_singles 0 nothing [New 0 2 sample_poses; CopyNew 1 0; Write 1 RearAxle 5] = Ok m /\
  exists f, m (1, RearAxle) = Some f /\ Forall (fun o => ~ destroys o) [New 0 2 sample_poses; CopyNew 1 0; Write 1 RearAxle 5].
Proof.
  eexists. split; [vm_compute; reflexivity|]. eexists. split; [vm_compute; reflexivity|].
  repeat constructor; intro H; exact H.
Qed.

Print Assumptions C116_poses_of_a_car.
Print Assumptions C116_copy_has_the_same_poses.
Print Assumptions C116_vehicles_are_independent.
Print Assumptions C117_no_destruction_partial.
Print Assumptions C117_outliving_copy_refuted.
