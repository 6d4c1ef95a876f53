(** Lemmas on the optimal laptime problem of a whole car: evaluations that differ by signs and order of their components, and the elements of a lap with another start. *)
From Coq Require Import Reals Lra Lia List Permutation.
From Verif Require Import M_RealLap.
Import ListNotations.
Local Open Scope R_scope.

(** ** Signed permutations *)
Definition sgn (b : bool) (x : R) : R := if b then x else - x.
Definition shuffle (p : list (bool * nat)) (l : list R) : list R := map (fun e : bool * nat => sgn (fst e) (item l (snd e))) p.
Definition shuffle_low (p : list (bool * nat)) (lb ub : list R) : list R := map (fun e : bool * nat => if fst e then item lb (snd e) else - item ub (snd e)) p.
Definition onto (p : list (bool * nat)) (n : nat) : Prop := Forall (fun e : bool * nat => (snd e < n)%nat) p /\ forall k, (k < n)%nat -> exists b, In (b, k) p.

Lemma item_map {A} (f : A -> R) (l : list A) k d : (k < length l)%nat -> item (map f l) k = f (nth k l d).
Proof. intros H. unfold item. rewrite (nth_indep _ 0 (f d)) by (rewrite map_length; exact H). apply map_nth. Qed.
Lemma item_shuffle p l k : (k < length p)%nat -> item (shuffle p l) k = sgn (fst (nth k p (true, 0%nat))) (item l (snd (nth k p (true, 0%nat)))).
Proof. intros H. unfold shuffle. rewrite (item_map _ _ _ (true, 0%nat)) by exact H. reflexivity. Qed.
Lemma shuffle_length p l : length (shuffle p l) = length p. Proof. apply map_length. Qed.
Lemma sgn_zero b x : sgn b x = 0 <-> x = 0. Proof. destruct b; cbn; lra. Qed.

Lemma Forall_item (P : R -> Prop) l : Forall P l <-> forall k, (k < length l)%nat -> P (item l k).
Proof. rewrite Forall_forall. split; [intros H k Hk; apply H, nth_In, Hk|]. intros H x Hx. apply (In_nth _ _ 0) in Hx. destruct Hx as (k & Hk & <-). apply H, Hk. Qed.
Lemma onto_nth p n k : onto p n -> (k < n)%nat -> exists j, (j < length p)%nat /\ snd (nth j p (true, 0%nat)) = k.
Proof. intros [_ H] Hk. destruct (H k Hk) as [b Hb]. apply (In_nth _ _ (true, 0%nat)) in Hb. destruct Hb as (j & Hj & E). exists j. rewrite E. auto. Qed.
Lemma onto_lt p n j : onto p n -> (j < length p)%nat -> (snd (nth j p (true, 0%nat)) < n)%nat.
Proof. intros [H _] Hj. rewrite Forall_forall in H. apply H, nth_In, Hj. Qed.

Lemma shuffle_zero p l : onto p (length l) -> (Forall (fun x => x = 0) (shuffle p l) <-> Forall (fun x => x = 0) l).
Proof.
  intros O. rewrite !Forall_item, shuffle_length. split; intros H k Hk.
  - destruct (onto_nth p _ k O Hk) as (j & Hj & <-). specialize (H j Hj). rewrite item_shuffle in H by exact Hj. apply sgn_zero in H. exact H.
  - rewrite item_shuffle by exact Hk. apply sgn_zero, H, (onto_lt p _ k O Hk).
Qed.
Lemma shuffle_bounded p lb x ub : onto p (length x) -> length lb = length x -> length ub = length x ->
  (bounded (shuffle_low p lb ub) (shuffle p x) (shuffle_low p ub lb) <-> bounded lb x ub).
Proof.
  intros O El Eu. unfold bounded. rewrite shuffle_length. unfold shuffle_low. rewrite !map_length.
  assert (St : forall j, (j < length p)%nat -> let k := snd (nth j p (true, 0%nat)) in
    (item (map (fun e : bool * nat => if fst e then item lb (snd e) else - item ub (snd e)) p) j <= item (shuffle p x) j <=
     item (map (fun e : bool * nat => if fst e then item ub (snd e) else - item lb (snd e)) p) j <-> item lb k <= item x k <= item ub k)).
  { intros j Hj k. unfold k. rewrite item_shuffle, !(item_map _ p j (true, 0%nat)) by exact Hj. destruct (fst (nth j p (true, 0%nat))); cbn [sgn]; lra. }
  split; intros (_ & _ & H).
  - split; [exact El|]. split; [exact Eu|]. intros k Hk. destruct (onto_nth p _ k O Hk) as (j & Hj & <-). apply St, H; exact Hj.
  - split; [reflexivity|]. split; [reflexivity|]. intros j Hj. apply St, H, (onto_lt p _ j O); exact Hj.
Qed.

(** ** Images of evaluations *)
(** [pu]: signs of the controls; [pi]: places of the integral quantities. *)
Record images (pq pa pe px : list (bool * nat)) (pu : list bool) (pi : nat -> nat) (e e' : point_eval) : Prop := Images {
  im_dt : e_dt e' = e_dt e;
  im_q : e_q e' = shuffle pq (e_q e); im_dq : e_dq e' = shuffle pq (e_dq e); im_nq : onto pq (length (e_q e));
  im_a : e_alg e' = shuffle pa (e_alg e); im_na : onto pa (length (e_alg e));
  im_e : e_extra e' = shuffle pe (e_extra e); im_lb : e_lb e' = shuffle_low pe (e_lb e) (e_ub e); im_ub : e_ub e' = shuffle_low pe (e_ub e) (e_lb e);
  im_ne : onto pe (length (e_extra e)); im_nlb : length (e_lb e) = length (e_extra e); im_nub : length (e_ub e) = length (e_extra e);
  im_x : e_x e' = shuffle px (e_x e); im_xlb : e_xlb e' = shuffle_low px (e_xlb e) (e_xub e); im_xub : e_xub e' = shuffle_low px (e_xub e) (e_xlb e);
  im_nx : onto px (length (e_x e)); im_nxlb : length (e_xlb e) = length (e_x e); im_nxub : length (e_xub e) = length (e_x e);
  im_u : forall k, item (e_u e') k = sgn (nth k pu true) (item (e_u e) k);
  im_i : forall k, item (e_int e') (pi k) = item (e_int e) k }.

Definition lap_images pq pa pe px pu pi : list (R * point_eval) -> list (R * point_eval) -> Prop :=
  Forall2 (fun a b => fst b = fst a /\ images pq pa pe px pu pi (snd a) (snd b)).
Definition element_images pq pa pe px pu pi (a b : mesh_element) : Prop :=
  fst b = fst a /\ images pq pa pe px pu pi (fst (snd a)) (fst (snd b)) /\ images pq pa pe px pu pi (snd (snd a)) (snd (snd b)).

Section Images.
Context (pq pa pe px : list (bool * nat)) (pu : list bool) (pi : nat -> nat).
Local Notation lap_im := (lap_images pq pa pe px pu pi).
Local Notation el_im := (element_images pq pa pe px pu pi).

Lemma inner_images p p' : lap_im p p' -> Forall2 el_im (inner_elements p) (inner_elements p').
Proof.
  intros H. induction H as [|a a' l l' [E I] H IH]; [constructor|].
  destruct H as [|b b' l l' [E' I'] H]; [constructor|].
  cbn [inner_elements]. constructor; [|exact IH]. split; [cbn [fst]; rewrite E, E'; reflexivity|]. split; assumption.
Qed.
Lemma last_images p p' a a' : lap_im p p' -> fst a' = fst a /\ images pq pa pe px pu pi (snd a) (snd a') ->
  fst (last p' a') = fst (last p a) /\ images pq pa pe px pu pi (snd (last p a)) (snd (last p' a')).
Proof.
  intros H. revert a a'. induction H as [|b b' l l' B H IH]; intros a a' A; [exact A|].
  destruct H as [|c c' l l' C H]; [exact B|]. exact (IH a a' A).
Qed.
Lemma closing_images L p p' : lap_im p p' -> Forall2 el_im (closing_element L p) (closing_element L p').
Proof.
  intros H. pose proof H as H'. destruct H as [|a a' l l' A H]; [constructor|]. unfold closing_element. cbv zeta.
  destruct (last_images _ _ a a' H' A) as [E I]. constructor; [|constructor]. unfold element_images. cbn [fst snd]. rewrite E. split; [reflexivity|]. split; [exact I | exact (proj2 A)].
Qed.
Lemma mesh_images closed L p p' : lap_im p p' -> Forall2 el_im (mesh_elements closed L p) (mesh_elements closed L p').
Proof. intros H. apply Forall2_app; [apply inner_images, H|]. destruct closed; [apply closing_images, H | constructor]. Qed.

Lemma Forall2_total (f : mesh_element -> R) (g : mesh_element -> R) l l' : (forall a b, el_im a b -> g b = f a) -> Forall2 el_im l l' -> total (map g l') = total (map f l).
Proof. intros E H. induction H as [|a b l l' A H IH]; [reflexivity|]. cbn. rewrite (E a b A). unfold total in IH. rewrite IH. reflexivity. Qed.
Lemma Forall2_iff {A} (P Q : A -> Prop) (R : A -> A -> Prop) l l' : (forall a b, R a b -> (Q b <-> P a)) -> Forall2 R l l' -> (Forall Q l' <-> Forall P l).
Proof.
  intros E H. induction H as [|a b l l' X H IH]; [split; constructor|]. split; intros F; inversion F; subst; constructor;
    try (apply (E a b X); assumption); apply IH; assumption.
Qed.

Lemma cost_image sigma dis a b : el_im a b -> element_cost sigma dis b = element_cost sigma dis a.
Proof.
  destruct a as [ds [l r]], b as [ds' [l' r']]. intros (E & I & J). cbn [fst snd] in *. subst ds'. unfold element_cost.
  rewrite (im_dt _ _ _ _ _ _ _ _ I), (im_dt _ _ _ _ _ _ _ _ J). f_equal. f_equal. apply map_ext. intros k. cbv zeta.
  rewrite (im_u _ _ _ _ _ _ _ _ I), (im_u _ _ _ _ _ _ _ _ J). f_equal. f_equal. destruct (nth k pu true); cbn [sgn]; unfold Rdiv; ring.
Qed.
Lemma residuals_image sigma a b : el_im a b -> residuals sigma b = shuffle pq (residuals sigma a) /\ onto pq (length (residuals sigma a)).
Proof.
  destruct a as [ds [l r]], b as [ds' [l' r']]. intros (E & I & J). cbn [fst snd] in *. subst ds'. unfold residuals.
  pose proof (im_nq _ _ _ _ _ _ _ _ J) as O. split; [|rewrite map_length, seq_length; exact O].
  rewrite (im_q _ _ _ _ _ _ _ _ J), shuffle_length.
  apply (nth_ext _ _ 0 0); [rewrite map_length, seq_length, shuffle_length; reflexivity|]. rewrite map_length, seq_length. intros k Hk.
  set (f := fun k0 : nat => _). change (item (map f (seq 0 (length pq))) k = item (shuffle pq (map (fun k0 : nat =>
      item (e_q r) k0 - item (e_q l) k0 - ds * ((1 - sigma) * item (e_dq l) k0 + sigma * item (e_dq r) k0)) (seq 0 (length (e_q r))))) k).
  rewrite (item_map _ _ _ 0%nat) by (rewrite seq_length; exact Hk). rewrite seq_nth, Nat.add_0_l by exact Hk.
  rewrite item_shuffle by exact Hk. set (j := nth k pq (true, 0%nat)). assert (Hj : (snd j < length (e_q r))%nat) by (apply onto_lt; assumption).
  rewrite (item_map _ _ _ 0%nat) by (rewrite seq_length; exact Hj). rewrite seq_nth, Nat.add_0_l by exact Hj.
  unfold f. rewrite (im_q _ _ _ _ _ _ _ _ I), (im_dq _ _ _ _ _ _ _ _ I), (im_dq _ _ _ _ _ _ _ _ J), !item_shuffle by exact Hk.
  fold j. destruct (fst j); cbn [sgn]; ring.
Qed.
Lemma algebraic_image a b : images pq pa pe px pu pi a b -> algebraic_residuals b = shuffle pa (algebraic_residuals a) /\ onto pa (length (algebraic_residuals a)).
Proof.
  intros I. unfold algebraic_residuals. rewrite map_length. pose proof (im_na _ _ _ _ _ _ _ _ I) as O. split; [|exact O].
  rewrite (im_a _ _ _ _ _ _ _ _ I), (im_dt _ _ _ _ _ _ _ _ I). unfold shuffle. rewrite map_map. apply map_ext_in. intros [s k] Hk. cbn [fst snd].
  destruct O as [O _]. rewrite Forall_forall in O. specialize (O _ Hk). cbn in O. rewrite (item_map _ _ _ 0) by exact O. unfold item.
  destruct s; cbn [sgn]; unfold Rdiv; ring.
Qed.
Lemma holds_image sigma a b : el_im a b -> (element_holds sigma b <-> element_holds sigma a).
Proof.
  intros H. destruct (residuals_image sigma a b H) as [E O]. destruct H as (_ & _ & J). destruct (algebraic_image _ _ J) as [E' O'].
  unfold element_holds. rewrite E, E', (shuffle_zero _ _ O), (shuffle_zero _ _ O').
  destruct J. rewrite im_e0, im_lb0, im_ub0, (shuffle_bounded pe _ _ _ im_ne0 im_nlb0 im_nub0). reflexivity.
Qed.
Lemma variables_image closed p p' : lap_im p p' -> (variables_hold closed p' <-> variables_hold closed p).
Proof.
  intros H. unfold variables_hold. apply (Forall2_iff _ _ (fun a b => fst b = fst a /\ images pq pa pe px pu pi (snd a) (snd b))).
  - intros a b [_ J]. destruct J. rewrite im_x0, im_xlb0, im_xub0, (shuffle_bounded px _ _ _ im_nx0 im_nxlb0 im_nxub0). reflexivity.
  - destruct closed; [exact H|]. destruct H; [constructor | exact H0].
Qed.
Lemma integral_image sigma closed L k p p' : lap_im p p' -> lap_integral sigma closed L (pi k) p' = lap_integral sigma closed L k p.
Proof.
  intros H. unfold lap_integral. f_equal; [|destruct closed; [|reflexivity]].
  - apply Forall2_total; [|apply inner_images, H]. intros [ds [l r]] [ds' [l' r']] (E & I & J). cbn [fst snd] in *.
    rewrite E, (im_i _ _ _ _ _ _ _ _ I), (im_i _ _ _ _ _ _ _ _ J). reflexivity.
  - apply Forall2_total; [|apply closing_images, H]. intros [ds [l r]] [ds' [l' r']] (E & I & J). cbn [fst snd] in *.
    rewrite E, (im_i _ _ _ _ _ _ _ _ I), (im_i _ _ _ _ _ _ _ _ J). reflexivity.
Qed.
Lemma image_feasible sigma restricted closed L p p' : lap_im p p' ->
  (lap_feasible sigma (map (fun q => (pi (fst q), snd q)) restricted) closed L p' <-> lap_feasible sigma restricted closed L p).
Proof.
  intros H. unfold lap_feasible. rewrite (variables_image closed p p' H), (Forall2_iff _ _ _ _ _ (holds_image sigma) (mesh_images closed L p p' H)).
  rewrite Forall_map. cbn [fst snd].
  assert (E : Forall (fun q : nat * (R * R) => fst (snd q) <= lap_integral sigma closed L (pi (fst q)) p' <= snd (snd q)) restricted <->
              Forall (fun q : nat * (R * R) => fst (snd q) <= lap_integral sigma closed L (fst q) p <= snd (snd q)) restricted).
  { rewrite !Forall_forall. split; intros F q Hq; specialize (F q Hq); rewrite (integral_image sigma closed L (fst q) p p' H) in *; exact F. }
  rewrite E. reflexivity.
Qed.
Lemma image_objective sigma dis closed L p p' : lap_im p p' -> lap_objective sigma dis closed L p' = lap_objective sigma dis closed L p.
Proof. intros H. apply Forall2_total; [apply cost_image | apply mesh_images, H]. Qed.
End Images.

(** ** Another start *)
Definition moved (d : R) (pts : list (R * point_eval)) : list (R * point_eval) := map (fun p => (fst p + d, snd p)) pts.
Lemma inner_moved d p : inner_elements (moved d p) = inner_elements p.
Proof.
  induction p as [|a l IH]; [reflexivity|]. destruct l as [|b l]; [reflexivity|]. 
  change (inner_elements (moved d (a :: b :: l))) with ((fst b + d - (fst a + d), (snd a, snd b)) :: inner_elements (moved d (b :: l))).
  rewrite IH. change (inner_elements (a :: b :: l)) with ((fst b - fst a, (snd a, snd b)) :: inner_elements (b :: l)). f_equal. f_equal. ring.
Qed.
Lemma inner_app a b (l m : list (R * point_eval)) :
  inner_elements ((a :: l) ++ b :: m) = inner_elements (a :: l) ++ (fst b - fst (last (a :: l) a), (snd (last (a :: l) a), snd b)) :: inner_elements (b :: m).
Proof.
  revert a. induction l as [|c l IH]; intros a; [reflexivity|].
  change (inner_elements ((a :: c :: l) ++ b :: m)) with ((fst c - fst a, (snd a, snd c)) :: inner_elements ((c :: l) ++ b :: m)).
  rewrite (IH c). change (inner_elements (a :: c :: l)) with ((fst c - fst a, (snd a, snd c)) :: inner_elements (c :: l)). cbn [app].
  assert (E : last (a :: c :: l) a = last (c :: l) c).
  { change (last (a :: c :: l) a) with (last (c :: l) a). clear. revert c. induction l as [|d l IH]; intros c; [reflexivity|].
    change (last (d :: l) a = last (d :: l) c). clear. revert d. induction l as [|e l IH]; intros d; [reflexivity | apply IH]. }
  rewrite E. reflexivity.
Qed.
Lemma last_indep {A} (l : list A) b c : l <> [] -> last l b = last l c.
Proof. induction l as [|a l IH]; [congruence|]. intros _. destruct l as [|d l]; [reflexivity|]. apply IH. discriminate. Qed.
Lemma last_moved d p a : last (moved d p) (fst a + d, snd a) = (fst (last p a) + d, snd (last p a)).
Proof. induction p as [|b l IH]; [reflexivity|]. destruct l as [|c l]; [reflexivity|]. exact IH. Qed.
Lemma last_app2 {A} (l m : list A) a : m <> [] -> last (l ++ m) a = last m a.
Proof.
  intros Hm. induction l as [|b l IH]; [reflexivity|]. cbn [app]. destruct (l ++ m) eqn:E; [apply app_eq_nil in E; tauto|]. exact IH.
Qed.

(** The elements of a closed lap are the same from every start. *)
Lemma elements_restarted L d a b l m : fst a = 0 -> fst b = d ->
  Permutation (mesh_elements true L (moved (- d) (b :: m) ++ moved (L - d) (a :: l))) (mesh_elements true L ((a :: l) ++ b :: m)).
Proof.
  intros Ha Hb. unfold mesh_elements.
  assert (E1 : inner_elements (moved (- d) (b :: m) ++ moved (L - d) (a :: l)) =
               inner_elements (b :: m) ++ (L - fst (last (b :: m) b), (snd (last (b :: m) b), snd a)) :: inner_elements (a :: l)).
  { change (moved (- d) (b :: m)) with ((fst b + - d, snd b) :: moved (- d) m). change (moved (L - d) (a :: l)) with ((fst a + (L - d), snd a) :: moved (L - d) l).
    rewrite inner_app. change ((fst b + - d, snd b) :: moved (- d) m) with (moved (- d) (b :: m)). change ((fst a + (L - d), snd a) :: moved (L - d) l) with (moved (L - d) (a :: l)).
    rewrite !inner_moved, last_moved. cbn [fst snd]. f_equal. f_equal. f_equal. rewrite Ha. ring. }
  assert (E2 : closing_element L (moved (- d) (b :: m) ++ moved (L - d) (a :: l)) = [(fst b - fst (last (a :: l) a), (snd (last (a :: l) a), snd b))]).
  { change (moved (- d) (b :: m)) with ((fst b + - d, snd b) :: moved (- d) m). cbn [app]. unfold closing_element. cbv zeta.
    change ((fst b + - d, snd b) :: moved (- d) m ++ moved (L - d) (a :: l)) with (((fst b + - d, snd b) :: moved (- d) m) ++ moved (L - d) (a :: l)).
    rewrite last_app2 by discriminate. rewrite (last_indep _ _ (fst a + (L - d), snd a)) by discriminate. rewrite last_moved. cbn [fst snd]. f_equal. f_equal. rewrite Hb. ring. }
  assert (E3 : closing_element L ((a :: l) ++ b :: m) = [(L - fst (last (b :: m) b), (snd (last (b :: m) b), snd a))]).
  { cbn [app]. unfold closing_element. cbv zeta. change (a :: l ++ b :: m) with ((a :: l) ++ b :: m). rewrite last_app2 by discriminate. rewrite (last_indep _ a b) by discriminate. reflexivity. }
  rewrite E1, E2, E3, inner_app. rewrite <- !app_assoc. cbn [app].
  set (X := inner_elements (a :: l)). set (Y := inner_elements (b :: m)). set (x := (fst b - _, _)). set (y := (L - _, _)).
  (* Y ++ y :: X ++ [x]  ~  X ++ x :: Y ++ [y] *)
  apply (Permutation_trans (l' := (x :: Y ++ [y]) ++ X)); [|apply Permutation_app_comm].
  cbn [app]. rewrite <- app_assoc. cbn [app].
  apply (Permutation_trans (l' := x :: Y ++ y :: X)); [|reflexivity].
  change (Y ++ y :: X ++ [x]) with (Y ++ (y :: X) ++ [x]). rewrite app_assoc. symmetry. apply Permutation_cons_append.
Qed.
Lemma total_perm l l' : Permutation l l' -> total l = total l'.
Proof. unfold total. intros H. induction H; cbn [fold_right] in *; lra. Qed.
