(** Property theorems C134 and C135: questions to the C API. *)
From stdpp Require Import base strings gmap list pretty.
From Coq Require Import ZArith Ascii.
From Verif Require Import M_Regex M_Store S_Store M_Query S_Query L_Query P_Store.

Local Arguments String.append !_ _ / : simpl nomatch.

(** *** Texts *)
Lemma sapp_nil (t : string) : t +:+ "" = t.
Proof. induction t as [|c t IH]; [reflexivity|]. cbn. f_equal. exact IH. Qed.
Lemma sapp_assoc (a b c : string) : a +:+ (b +:+ c) = (a +:+ b) +:+ c.
Proof. induction a as [|x a IH]; [reflexivity|]. cbn. f_equal. exact IH. Qed.

Lemma lines_of_line t : forall rest cur, one_line t ->
  lines_of (line t +:+ rest) cur = (cur +:+ t) :: lines_of rest "".
Proof.
  induction t as [|c t IH]; intros rest cur H.
  - cbn. rewrite sapp_nil. reflexivity.
  - destruct H as [Hc Ht]. unfold line. cbn [String.append lines_of].
    destruct (Ascii.eqb_spec c "010"%char) as [->|_]; [contradiction|].
    change ((t +:+ newline) +:+ rest) with (line t +:+ rest). rewrite IH by exact Ht.
    rewrite <- sapp_assoc. reflexivity.
Qed.
Lemma lines_of_concat l : Forall one_line l -> lines_of (concat_lines l) "" = l.
Proof.
  induction l as [|t l IH]; intros H; [reflexivity|]. inversion_clear H as [|? ? Ht Hl].
  cbn [concat_lines]. rewrite lines_of_line by exact Ht. rewrite IH by exact Hl. reflexivity.
Qed.

Lemma one_line_app a b : one_line a -> one_line b -> one_line (a +:+ b).
Proof. induction a as [|c a IH]; cbn; [tauto|]. intros [H1 H2] Hb. auto. Qed.

Lemma substring_all (t : string) : String.substring 0 (String.length t) t = t.
Proof. induction t as [|c t IH]; [reflexivity|]. cbn. f_equal. exact IH. Qed.

Lemma prefix_type (r : string) : String.prefix "Type " ("Type " +:+ r) = true.
Proof. cbn. destruct r; reflexivity. Qed.
Lemma prefix_entry (r : string) : String.prefix "    -> " ("    -> " +:+ r) = true.
Proof. cbn. destruct r; reflexivity. Qed.

Section Read.
Context {K F T N : Type} (qe : qenv K F T N).

Lemma read_header sec ty k l : read_lines sec (header qe ty k :: l) = read_lines (header qe ty k) l.
Proof. unfold header. cbn [read_lines]. rewrite prefix_type. reflexivity. Qed.
Lemma read_named sec n l : read_lines sec (("    -> " +:+ n) :: l) = (sec, n) :: read_lines sec l.
Proof.
  cbn [read_lines]. change (String.prefix "Type " ("    -> " +:+ n)) with false. cbv iota.
  rewrite prefix_entry. cbv iota. f_equal. f_equal.
  change (String.length ("    -> " +:+ n)) with (7 + String.length n).
  replace (7 + String.length n - 7) with (String.length n) by lia.
  cbn. apply substring_all.
Qed.
Lemma read_entries sec (ns : list string) l : read_lines sec ((entry <$> ns) ++ l) = (pair sec <$> ns) ++ read_lines sec l.
Proof.
  induction ns as [|n ns IH]; [reflexivity|].
  rewrite !fmap_cons. change ((entry n :: (entry <$> ns)) ++ l) with (("    -> " +:+ n) :: ((entry <$> ns) ++ l)).
  rewrite read_named, IH. reflexivity.
Qed.
Lemma read_blank sec l : read_lines sec (EmptyString :: l) = read_lines sec l.
Proof. reflexivity. Qed.

Definition vname (nv : string * list N) : string := nv.1 +:+ " (" +:+ q_show_size qe (length nv.2) +:+ ")".
Lemma vector_entries (lv : list (string * list N)) :
  (fun nv => vector_entry qe nv.1 (length nv.2)) <$> lv = entry <$> (vname <$> lv).
Proof. induction lv as [|[n v] lv IH]; [reflexivity|]. rewrite !fmap_cons, IH. reflexivity. Qed.

Lemma read_print lk lf lt ls lv : read_lines "" (print_lines qe lk lf lt ls lv) =
  (pair (header qe "kart_6dof" (length lk)) <$> lk) ++ (pair (header qe "f1_3dof" (length lf)) <$> lf) ++
  (pair (header qe "tracks" (length lt)) <$> lt) ++ (pair (header qe "scalar" (length ls)) <$> ls) ++
  (pair (header qe "vector" (length lv)) <$> (vname <$> lv)).
Proof.
  unfold print_lines. rewrite vector_entries.
  rewrite read_header, read_entries. f_equal. cbn [app]. rewrite read_blank, read_header, read_entries. f_equal.
  cbn [app]. rewrite read_blank, read_header, read_entries. f_equal.
  cbn [app]. rewrite read_blank, read_header, read_entries. f_equal.
  cbn [app]. rewrite read_blank, read_header. rewrite <- (app_nil_r (entry <$> (vname <$> lv))), read_entries.
  cbn [read_lines]. rewrite app_nil_r. reflexivity.
Qed.

Lemma filter_entries (ns : list string) l : List.filter (String.prefix "Type ") ((entry <$> ns) ++ l) = List.filter (String.prefix "Type ") l.
Proof. induction ns as [|n ns IH]; [reflexivity|]. exact IH. Qed.
Lemma filter_header ty k l : List.filter (String.prefix "Type ") (header qe ty k :: l) = header qe ty k :: List.filter (String.prefix "Type ") l.
Proof. unfold header. cbn [List.filter]. rewrite prefix_type. reflexivity. Qed.

Lemma sections_print lk lf lt ls lv : List.filter (String.prefix "Type ") (print_lines qe lk lf lt ls lv) =
  [header qe "kart_6dof" (length lk); header qe "f1_3dof" (length lf); header qe "tracks" (length lt);
   header qe "scalar" (length ls); header qe "vector" (length lv)].
Proof.
  unfold print_lines. rewrite vector_entries.
  rewrite filter_header, filter_entries. f_equal. cbn [app].
  change (List.filter ?f (EmptyString :: ?l)) with (List.filter f l). rewrite filter_header, filter_entries. f_equal.
  cbn [app]. change (List.filter ?f (EmptyString :: ?l)) with (List.filter f l). rewrite filter_header, filter_entries. f_equal.
  cbn [app]. change (List.filter ?f (EmptyString :: ?l)) with (List.filter f l). rewrite filter_header, filter_entries. f_equal.
  cbn [app]. change (List.filter ?f (EmptyString :: ?l)) with (List.filter f l). rewrite filter_header.
  rewrite <- (app_nil_r (entry <$> (vname <$> lv))), filter_entries. reflexivity.
Qed.
End Read.

Lemma iterates_elem {A} (m : gmap string A) l n a : iterates m l -> ((n, a) ∈ l <-> m !! n = Some a).
Proof. intros P. unfold iterates in P. rewrite P. apply elem_of_map_to_list. Qed.
Lemma iterates_name {A} (m : gmap string A) l n : iterates m l -> (n ∈ l.*1 <-> exists a, m !! n = Some a).
Proof.
  intros P. rewrite elem_of_list_fmap. split.
  - intros ([n' a] & -> & H). exists a. apply (iterates_elem m l n' a P), H.
  - intros [a H]. exists (n, a). split; [reflexivity|]. apply (iterates_elem m l n a P), H.
Qed.
Lemma iterates_size {A} (m : gmap string A) l : iterates m l -> length l = size m.
Proof. intros P. unfold iterates in P. rewrite P. symmetry. apply map_size_list || reflexivity. Qed.
Lemma iterates_nodup {A} (m : gmap string A) l : iterates m l -> NoDup l.*1.
Proof. intros P. unfold iterates in P. rewrite P. apply NoDup_fst_map_to_list. Qed.

Lemma nodup_pairs (h : string) (l : list string) (rest : list (string * string)) :
  NoDup l -> NoDup rest -> (forall x, (h, x) ∉ rest) -> NoDup ((pair h <$> l) ++ rest).
Proof.
  intros H1 H2 H3. apply NoDup_app. split; [|split; [|exact H2]].
  - apply NoDup_fmap_2; [|exact H1]. intros a b E. congruence.
  - intros [h' x] Hx. apply elem_of_list_fmap in Hx. destruct Hx as (y & E & _). injection E as -> ->. apply H3.
Qed.

Lemma bracket_split x y : no_bracket x -> no_bracket y -> forall a b,
  a +:+ " (" +:+ x = b +:+ " (" +:+ y -> a = b /\ x = y.
Proof.
  assert (NB : forall b z, ~ no_bracket (b +:+ " (" +:+ z)).
  { induction b as [|c b IH]; intros z; cbn; [tauto|]. intros [_ H]. exact (IH z H). }
  intros Hx Hy. induction a as [|c a IH]; intros [|d b] E.
  - injection E as E. auto.
  - exfalso. cbn in E. injection E as <- E. destruct b as [|d b]; [discriminate|].
    cbn in E. injection E as <- E. apply (NB b y). cbn. rewrite <- E. exact Hx.
  - exfalso. cbn in E. injection E as -> E. destruct a as [|d a]; [discriminate|].
    cbn in E. injection E as -> E. apply (NB a x). cbn. rewrite E. exact Hy.
  - cbn in E. injection E as -> E. destruct (IH b E) as [-> ->]. auto.
Qed.
Lemma close_cancel x : forall y, x +:+ ")" = y +:+ ")" -> x = y.
Proof.
  induction x as [|c x IH]; intros [|d y] E.
  - reflexivity.
  - cbn in E. injection E as <- E. destruct y; discriminate.
  - cbn in E. injection E as -> E. destruct x; discriminate.
  - cbn in E. injection E as -> E. f_equal. apply IH, E.
Qed.
Lemma no_bracket_close x : no_bracket x -> no_bracket (x +:+ ")").
Proof. induction x as [|c x IH]; cbn; [|tauto]. intros _. split; [discriminate|exact I]. Qed.

Section Listing.
Context {K F T N : Type}.
Implicit Types (qe : qenv K F T N) (s : store K F T N).

Lemma prints_read qe s text : (forall k, one_line (q_show_size qe k)) -> (forall n v, holds s n v -> one_line n) ->
  prints qe s text -> exists lk lf lt ls lv,
    iterates (t_kart s) lk /\ iterates (t_f1 s) lf /\ iterates (t_track s) lt /\ iterates (t_scalar s) ls /\
    iterates (t_vector s) lv /\ lines_of text "" = print_lines qe lk.*1 lf.*1 lt.*1 ls.*1 lv.
Proof.
  intros W L (lk & lf & lt & ls & lv & Ik & If & It & Is & Iv & ->).
  exists lk, lf, lt, ls, lv. split; [exact Ik|]. split; [exact If|]. split; [exact It|]. split; [exact Is|].
  split; [exact Iv|]. apply lines_of_concat.
  assert (HH : forall ty k, one_line ty -> one_line (header qe ty k)).
  { intros ty k H. unfold header. apply one_line_app; [cbn; repeat split; discriminate|].
    apply one_line_app; [exact H|]. apply one_line_app; [cbn; repeat split; discriminate|].
    apply one_line_app; [apply W|]. cbn; repeat split; discriminate. }
  assert (HE : forall ns : list string, (forall n, n ∈ ns -> one_line n) -> Forall one_line (entry <$> ns)).
  { intros ns H. apply Forall_forall. intros x Hx. apply elem_of_list_fmap in Hx. destruct Hx as (n & -> & Hn).
    unfold entry. apply one_line_app; [cbn; repeat split; discriminate|]. apply H, Hn. }
  assert (one_line "kart_6dof" /\ one_line "f1_3dof" /\ one_line "tracks" /\ one_line "scalar" /\ one_line "vector")
    as (O1 & O2 & O3 & O4 & O5) by (cbn; repeat split; discriminate).
  unfold print_lines. rewrite vector_entries.
  constructor; [apply HH, O1|]. apply Forall_app. split.
  { apply HE. intros n Hn. apply (iterates_name _ _ _ Ik) in Hn. destruct Hn as [a Ha]. exact (L n (VarKart a) Ha). }
  constructor; [exact I|]. constructor; [apply HH, O2|]. apply Forall_app. split.
  { apply HE. intros n Hn. apply (iterates_name _ _ _ If) in Hn. destruct Hn as [a Ha]. exact (L n (VarF1 a) Ha). }
  constructor; [exact I|]. constructor; [apply HH, O3|]. apply Forall_app. split.
  { apply HE. intros n Hn. apply (iterates_name _ _ _ It) in Hn. destruct Hn as [a Ha]. exact (L n (VarTrack a) Ha). }
  constructor; [exact I|]. constructor; [apply HH, O4|]. apply Forall_app. split.
  { apply HE. intros n Hn. apply (iterates_name _ _ _ Is) in Hn. destruct Hn as [a Ha]. exact (L n (VarScalar a) Ha). }
  constructor; [exact I|]. constructor; [apply HH, O5|]. apply HE.
  intros x Hx. apply elem_of_list_fmap in Hx. destruct Hx as ([n v] & -> & Hn). unfold vname.
  apply one_line_app; [apply (L n (VarVector v)), (iterates_elem _ _ _ _ Iv), Hn|].
  apply one_line_app; [cbn; repeat split; discriminate|]. apply one_line_app; [apply W|].
  cbn; repeat split; discriminate.
Qed.

(** *** C134: the listing names every variable once, in the section of its kind, and nothing else; each section says
    how many variables of the kind there are. *)
Theorem C134_listing qe s text : writes_sizes (q_show_size qe) -> (forall n v, holds s n v -> one_line n) ->
  prints qe s text ->
  sections text =
    ["Type kart_6dof: " +:+ q_show_size qe (size (t_kart s)) +:+ " variables";
     "Type f1_3dof: " +:+ q_show_size qe (size (t_f1 s)) +:+ " variables";
     "Type tracks: " +:+ q_show_size qe (size (t_track s)) +:+ " variables";
     "Type scalar: " +:+ q_show_size qe (size (t_scalar s)) +:+ " variables";
     "Type vector: " +:+ q_show_size qe (size (t_vector s)) +:+ " variables"] /\
  NoDup (read_listing text) /\
  (forall h x, (h, x) ∈ read_listing text <->
     exists n v, holds s n v /\ h = section_of (q_show_size qe) s v /\ x = listed_as (q_show_size qe) n v).
Proof.
  intros W L P.
  destruct (prints_read qe s text (w_line _ W) L P) as (lk & lf & lt & ls & lv & Ik & If & It & Is & Iv & E).
  unfold read_listing, sections. rewrite E, sections_print, read_print, !fmap_length.
  rewrite (iterates_size _ _ Ik), (iterates_size _ _ If), (iterates_size _ _ It), (iterates_size _ _ Is), (iterates_size _ _ Iv).
  split; [reflexivity|].
  assert (V : forall x, x ∈ vname qe <$> lv <-> exists n l, t_vector s !! n = Some l /\ x = n +:+ " (" +:+ q_show_size qe (length l) +:+ ")").
  { intros x. rewrite elem_of_list_fmap. split.
    - intros ([n l] & -> & H). exists n, l. split; [|reflexivity]. apply (iterates_elem _ _ _ _ Iv), H.
    - intros (n & l & H & ->). exists (n, l). split; [reflexivity|]. apply (iterates_elem _ _ _ _ Iv), H. }
  split.
  - assert (NDp : forall (h : string) (l : list string), NoDup l -> NoDup (pair h <$> l)).
    { intros h l H. apply NoDup_fmap_2; [|exact H]. intros a b Eab. congruence. }
    assert (NDv : NoDup (vname qe <$> lv)).
    { pose proof (iterates_nodup _ _ Iv) as ND. clear -ND W. induction lv as [|[n l] lv IH]; [constructor|].
      rewrite fmap_cons in *. cbn [fst] in ND. apply NoDup_cons in ND. destruct ND as [N1 N2].
      apply NoDup_cons. split; [|apply IH, N2]. intros H. apply N1.
      apply elem_of_list_fmap in H. destruct H as ([n' l'] & E & H). unfold vname in E. cbn [fst snd] in E.
      apply bracket_split in E; [|apply no_bracket_close, W|apply no_bracket_close, W].
      destruct E as [-> _]. apply elem_of_list_fmap. exists (n', l'). auto. }
    assert (Hs : forall (h h' : string) (l : list string) (x : string), h <> h' -> (h, x) ∉ (pair h' <$> l)).
    { intros h h' l x NE Hx. apply elem_of_list_fmap in Hx. destruct Hx as (y & Ey & _). congruence. }
    apply nodup_pairs; [eapply iterates_nodup; exact Ik| |].
    { apply nodup_pairs; [eapply iterates_nodup; exact If| |].
      { apply nodup_pairs; [eapply iterates_nodup; exact It| |].
        { apply nodup_pairs; [eapply iterates_nodup; exact Is|apply NDp, NDv|].
          intros x. apply Hs. discriminate. }
        intros x. rewrite elem_of_app. intros [H|H]; revert H; apply Hs; discriminate. }
      intros x. rewrite !elem_of_app. intros [H|[H|H]]; revert H; apply Hs; discriminate. }
    intros x. rewrite !elem_of_app. intros [H|[H|[H|H]]]; revert H; apply Hs; discriminate.
  - intros h x. rewrite !elem_of_app, !elem_of_list_fmap. split.
    + intros [H|[H|[H|[H|H]]]]; destruct H as (n & E1 & Hn); injection E1 as -> ->.
      * apply (iterates_name _ _ _ Ik) in Hn. destruct Hn as [a Ha]. exists n, (VarKart a). auto.
      * apply (iterates_name _ _ _ If) in Hn. destruct Hn as [a Ha]. exists n, (VarF1 a). auto.
      * apply (iterates_name _ _ _ It) in Hn. destruct Hn as [a Ha]. exists n, (VarTrack a). auto.
      * apply (iterates_name _ _ _ Is) in Hn. destruct Hn as [a Ha]. exists n, (VarScalar a). auto.
      * apply V in Hn. destruct Hn as (m & l & Hl & ->). exists m, (VarVector l). auto.
    + intros (n & v & H & -> & ->). destruct v as [a|a|a|a|a].
      * left. exists n. split; [reflexivity|]. apply (iterates_name _ _ _ Ik). eauto.
      * right; left. exists n. split; [reflexivity|]. apply (iterates_name _ _ _ If). eauto.
      * right; right; left. exists n. split; [reflexivity|]. apply (iterates_name _ _ _ It). eauto.
      * right; right; right; left. exists n. split; [reflexivity|]. apply (iterates_name _ _ _ Is). eauto.
      * right; right; right; right. eexists. split; [reflexivity|].
        apply V. exists n, a. auto.
Qed.

(** Two stores that print the same have the same names, kinds and sizes of vectors. *)
Theorem C134_listing_faithful qe s s' text : writes_sizes (q_show_size qe) ->
  (forall n v, holds s n v -> one_line n) -> (forall n v, holds s' n v -> one_line n) ->
  prints qe s text -> prints qe s' text ->
  forall n v, holds s n v -> exists w, holds s' n w /\ same_kind v w.
Proof.
  intros W L L' P P' n v H.
  destruct (C134_listing qe s text W L P) as (_ & _ & R). destruct (C134_listing qe s' text W L' P') as (_ & _ & R').
  assert (I1 : (section_of (q_show_size qe) s v, listed_as (q_show_size qe) n v) ∈ read_listing text)
    by (apply R; eauto).
  apply R' in I1. destruct I1 as (m & w & Hw & E1 & E2).
  destruct v, w; cbn in E1; try discriminate; cbn in E2; try (subst m; eexists; split; [exact Hw|exact I]).
  apply bracket_split in E2; [|apply no_bracket_close, W|apply no_bracket_close, W]. destruct E2 as [-> E2].
  apply close_cancel, (w_inj _ W) in E2. exists (VarVector l0). auto.
Qed.

(** There always is something to print. *)
Theorem C134_prints_something qe s : exists text, prints qe s text.
Proof.
  exists (concat_lines (print_lines qe (map_to_list (t_kart s)).*1 (map_to_list (t_f1 s)).*1 (map_to_list (t_track s)).*1
            (map_to_list (t_scalar s)).*1 (map_to_list (t_vector s)))), (map_to_list (t_kart s)), (map_to_list (t_f1 s)),
    (map_to_list (t_track s)), (map_to_list (t_scalar s)), (map_to_list (t_vector s)).
  unfold iterates. auto 10.
Qed.

(** The text of a variable, the file of a vehicle and an output of a vehicle are those of the variable the
    name denotes; unknown names are rejected. *)
Theorem C134_text qe s n : one_kind s ->
  (forall v, holds s n v -> print_variable qe s n = QText (text_of qe v)) /\
  (free s n -> print_variable qe s n = QRet Exc).
Proof.
  intros O. split.
  - intros v H. unfold print_variable.
    destruct (t_kart s !! n) as [a|] eqn:E1; [rewrite (O n v (VarKart a) H E1); reflexivity|].
    destruct (t_f1 s !! n) as [a|] eqn:E2; [rewrite (O n v (VarF1 a) H E2); reflexivity|].
    destruct (t_track s !! n) as [a|] eqn:E3; [rewrite (O n v (VarTrack a) H E3); reflexivity|].
    destruct (t_vector s !! n) as [a|] eqn:E4; [rewrite (O n v (VarVector a) H E4); reflexivity|].
    destruct (t_scalar s !! n) as [a|] eqn:E5; [rewrite (O n v (VarScalar a) H E5); reflexivity|].
    destruct v; cbn in H; congruence.
  - intros Fr. unfold print_variable.
    destruct (t_kart s !! n) as [a|] eqn:E1; [destruct (Fr (VarKart a) E1)|].
    destruct (t_f1 s !! n) as [a|] eqn:E2; [destruct (Fr (VarF1 a) E2)|].
    destruct (t_track s !! n) as [a|] eqn:E3; [destruct (Fr (VarTrack a) E3)|].
    destruct (t_vector s !! n) as [a|] eqn:E4; [destruct (Fr (VarVector a) E4)|].
    destruct (t_scalar s !! n) as [a|] eqn:E5; [destruct (Fr (VarScalar a) E5)|]. reflexivity.
Qed.

Theorem C134_file qe s n file : one_kind s ->
  (forall k, holds s n (VarKart k) -> vehicle_save_as_xml qe s n file = QFile file (text_of qe (VarKart k))) /\
  (forall c, holds s n (VarF1 c) -> vehicle_save_as_xml qe s n file = QFile file (text_of qe (VarF1 c))) /\
  ((forall k, ~ holds s n (VarKart k)) -> (forall c, ~ holds s n (VarF1 c)) -> vehicle_save_as_xml qe s n file = QRet Exc).
Proof.
  intros O. unfold vehicle_save_as_xml. split; [|split].
  - intros k H. cbn in H. rewrite H. reflexivity.
  - intros c H. destruct (t_kart s !! n) as [a|] eqn:E1; [discriminate (O n _ (VarKart a) H E1)|].
    cbn in H. rewrite H. reflexivity.
  - intros N1 N2. destruct (t_kart s !! n) as [a|] eqn:E1; [destruct (N1 a E1)|].
    destruct (t_f1 s !! n) as [a|] eqn:E2; [destruct (N2 a E2)|]. reflexivity.
Qed.

Theorem C134_output qe s n q u pos p : one_kind s ->
  (forall k, holds s n (VarKart k) -> length q = q_kart_inputs qe -> length u = q_kart_controls qe ->
     (vehicle_get_output qe s n q u pos p).2 =
       QRet (match q_kart_outputs qe (q_kart_eval qe k q u pos) !! p with Some x => Ret (VNum x) | None => Exc end)) /\
  (forall c, holds s n (VarF1 c) -> length q = q_f1_inputs qe -> length u = q_f1_controls qe ->
     (vehicle_get_output qe s n q u pos p).2 =
       QRet (match q_f1_outputs qe (q_f1_eval qe c q u pos) !! p with Some x => Ret (VNum x) | None => Exc end)) /\
  ((forall k, ~ holds s n (VarKart k)) -> (forall c, ~ holds s n (VarF1 c)) ->
     vehicle_get_output qe s n q u pos p = (s, QRet Exc)).
Proof.
  intros O. unfold vehicle_get_output. split; [|split].
  - intros k H Hq Hu. cbn in H. rewrite H. unfold get_property.
    rewrite Hq, Hu, !Nat.ltb_irrefl. cbn [orb snd]. rewrite !take_ge by lia. reflexivity.
  - intros c H Hq Hu. destruct (t_kart s !! n) as [a|] eqn:E1; [discriminate (O n _ (VarKart a) H E1)|].
    cbn in H. rewrite H. unfold get_property.
    rewrite Hq, Hu, !Nat.ltb_irrefl. cbn [orb snd]. rewrite !take_ge by lia. reflexivity.
  - intros N1 N2. destruct (t_kart s !! n) as [a|] eqn:E1; [destruct (N1 a E1)|].
    destruct (t_f1 s !! n) as [a|] eqn:E2; [destruct (N2 a E2)|]. reflexivity.
Qed.

(** An array of the caller with fewer numbers than the vehicle has is read past its end. *)
Theorem C134_short_array qe s n k q u pos p : holds s n (VarKart k) -> (length q < q_kart_inputs qe)%nat ->
  (vehicle_get_output qe s n q u pos p).2 = QRet UB.
Proof.
  intros H Hq. unfold vehicle_get_output. cbn in H. rewrite H. unfold get_property.
  rewrite (proj2 (Nat.ltb_lt _ _) Hq). reflexivity.
Qed.

(** *** C135: what a call answers does not depend on the questions asked before it. *)
Theorem C135_questions_change_nothing (e : env K F T N) qe RK RF s cs c :
  indistinguishable e RK RF -> evaluation_forgets qe RK RF -> Forall (fair RK RF) cs -> fair RK RF c ->
  (asks_for_text c = true -> files_forget qe RK RF) ->
  (qstep e qe (qrun e qe s cs) c).2 =
  (qstep e qe (qrun e qe s (List.filter (fun c => negb (asks c)) cs)) c).2.
Proof.
  intros HI HF Hcs Hc Hx. apply (same_answer e RK RF HI qe HF); [exact Hc|exact Hx|].
  apply (same_run e RK RF HI qe HF); [exact Hcs|]. apply (same_refl e RK RF HI).
Qed.

Lemma rel_iterates {A} (R : A -> A -> Prop) (m m' : gmap string A) l : rel R m m' -> iterates m l ->
  exists l', iterates m' l' /\ l'.*1 = l.*1.
Proof.
  intros H P.
  assert (E : forall l0 : list (string * A), NoDup l0.*1 -> (forall n a, (n, a) ∈ l0 -> m !! n = Some a) ->
    exists l', l'.*1 = l0.*1 /\ (forall n a, (n, a) ∈ l' -> m' !! n = Some a)).
  { induction l0 as [|[n a] l0 IH]; intros ND Hl.
    - exists []. split; [reflexivity|]. intros n a Hn. inversion Hn.
    - rewrite fmap_cons in ND. apply NoDup_cons in ND. destruct ND as [N1 N2].
      destruct (IH N2) as (l' & E1 & E2); [intros; apply Hl; right; assumption|].
      pose proof (H n) as Hn. rewrite (Hl n a (elem_of_list_here _ _)) in Hn.
      destruct (m' !! n) as [b|] eqn:Eb; [|contradiction].
      exists ((n, b) :: l'). split; [rewrite !fmap_cons, E1; reflexivity|].
      intros n' a' Hn'. apply elem_of_cons in Hn'. destruct Hn' as [Eq|Hn']; [injection Eq as -> ->; exact Eb|].
      apply E2, Hn'. }
  destruct (E l) as (l' & E1 & E2).
  { eapply iterates_nodup; exact P. }
  { intros n a Hn. apply (iterates_elem m l n a P), Hn. }
  exists l'. split; [|exact E1]. unfold iterates. apply NoDup_Permutation.
  - apply (NoDup_fmap_1 fst). rewrite E1. eapply iterates_nodup; exact P.
  - apply NoDup_map_to_list.
  - intros [n a]. rewrite elem_of_map_to_list. split; [apply E2|]. intros Ha.
    pose proof (H n) as Hn. rewrite Ha in Hn. destruct (m !! n) as [b|] eqn:Eb; [|contradiction].
    assert (I1 : n ∈ l'.*1) by (rewrite E1; apply (iterates_name m l n P); eauto).
    apply elem_of_list_fmap in I1. destruct I1 as ([n' a'] & E3 & I1). cbn in E3. subst n'.
    pose proof (E2 n a' I1) as E4. rewrite Ha in E4. injection E4 as ->. exact I1.
Qed.

(** The listing is not changed by them either. *)
Theorem C135_listing (e : env K F T N) qe RK RF s cs text :
  indistinguishable e RK RF -> evaluation_forgets qe RK RF -> Forall (fair RK RF) cs ->
  prints qe (qrun e qe s cs) text ->
  prints qe (qrun e qe s (List.filter (fun c => negb (asks c)) cs)) text.
Proof.
  intros HI HF Hcs (lk & lf & lt & ls & lv & Ik & If & It & Is & Iv & ->).
  destruct (same_run e RK RF HI qe HF cs s s Hcs (same_refl e RK RF HI s)) as (Sk & Sf & St & Ss & Sv).
  destruct (rel_iterates RK _ _ lk Sk Ik) as (lk' & Ik' & Ek). destruct (rel_iterates RF _ _ lf Sf If) as (lf' & If' & Ef).
  rewrite St in It. rewrite Ss in Is. rewrite Sv in Iv.
  exists lk', lf', lt, ls, lv. rewrite Ek, Ef. repeat split; assumption.
Qed.
End Listing.

(** *** A concrete case: cars and karts are a parameter and a member set by each evaluation; the output "force" is the
    product of the two, the state, the control and the position. *)
Definition car := (nat * nat)%type.
Definition env1 : env car car nat nat :=
  Env (7, 0) (fun c p x => ((c.1 + x, c.2), negb (Nat.eqb x 0))) (fun c p a x => ((c.1 + x, c.2), true))
      (fun k p a x => ((k.1 + x, k.2), true)) (fun c p a x g => ((c.1 + length x, c.2), true))
      (fun k p a x g => ((k.1 + length x, k.2), true)) (fun c t => ((c.1 + t, 0), true)) (fun k t => ((k.1 + t, 0), true))
      (fun t b sd wd => (t + length sd, true)) (fun t => t) (fun t => t) (fun t v => None).
Definition evaluate1 (c : car) (q u : list nat) (p : nat) : car := (c.1, sum_list q + sum_list u + p).
Definition qenv1 : qenv car car nat nat :=
  QEnv 2 1 2 1 evaluate1 evaluate1 (fun c => {[ "force" := c.1 * c.2 ]}) (fun c => {[ "force" := c.1 * c.2 ]})
    (fun k => "<kart>" +:+ pretty (N.of_nat k.1)) (fun c => "<car>" +:+ pretty (N.of_nat c.1)) (fun t => "<track>")
    (fun l => "vector") (fun x => "number") (fun k => pretty (N.of_nat k)).
Definition same_parameter (c c' : car) : Prop := c.1 = c'.1.

Lemma env1_meets : indistinguishable env1 same_parameter same_parameter /\
  evaluation_forgets qenv1 same_parameter same_parameter /\ files_forget qenv1 same_parameter same_parameter.
Proof.
  assert (E : Equivalence same_parameter).
  { split; [intros x; reflexivity|intros x y H; symmetry; exact H|intros x y z H1 H2; unfold same_parameter in *; congruence]. }
  unfold same_parameter in *. split; [|split].
  - split; try exact E; unfold keeps; intros; cbn in *; split; congruence.
  - split; cbn; intros; try reflexivity; congruence.
  - split; cbn; intros ? ? ->; reflexivity.
Qed.

(** Numbers written in decimal meet the requirement. *)
Lemma pretty_char_bounds c : (c < 10)%N -> pretty_N_char c <> "010"%char /\ pretty_N_char c <> "("%char.
Proof.
  intros H. destruct c as [|p]; [split; discriminate|].
  assert (p = 1 \/ p = 2 \/ p = 3 \/ p = 4 \/ p = 5 \/ p = 6 \/ p = 7 \/ p = 8 \/ p = 9)%positive by lia.
  repeat (destruct H0 as [->|H0]; [split; discriminate|]). subst. split; discriminate.
Qed.
Lemma pretty_go x : forall t, one_line t /\ no_bracket t -> one_line (pretty_N_go x t) /\ no_bracket (pretty_N_go x t).
Proof.
  induction (N.lt_wf_0 x) as [x _ IH]. intros t H. destruct (decide (x = 0)%N) as [->|NE]; [exact H|].
  rewrite pretty_N_go_step by lia. apply IH; [apply N.div_lt; lia|].
  pose proof (pretty_char_bounds (x `mod` 10) ltac:(apply N.mod_lt; lia)) as [H1 H2].
  destruct H. cbn. auto.
Qed.
Lemma pretty_writes_sizes : writes_sizes (fun k => pretty (N.of_nat k)).
Proof.
  assert (H : forall k, one_line (pretty (N.of_nat k)) /\ no_bracket (pretty (N.of_nat k))).
  { intros k. unfold pretty, pretty_N. destruct (decide _); [cbn; split; split; try discriminate; exact I|].
    apply pretty_go. cbn. auto. }
  split; [intros k; apply H|intros k; apply H|].
  intros k k' E. apply (inj pretty) in E. lia.
Qed.

Definition program1 : list (qcall car car nat nat) :=
  [Api (fun _ => CreateVehicleEmpty "car" "f1-3dof"); Api (fun _ => CreateScalar "x" 4);
   Api (fun _ => CreateVector "v" 2 [4; 5]); GetOutput "car" [1; 2] [3] 4 "force"; Api (fun _ => VehicleSetParameter "car" "mass" 3);
   PrintVariable "car"; SaveAsXml "car" "car.xml"].
Example C135_case :
  Forall (fair same_parameter same_parameter) program1 /\
  (qstep env1 qenv1 (qrun env1 qenv1 empty_store program1) (GetOutput "car" [1; 0] [0] 1 "force")).2 = QRet (Ret (VNum 20)) /\
  (qstep env1 qenv1 (qrun env1 qenv1 empty_store program1) (SaveAsXml "car" "f")).2 = QFile "f" "<car>10" /\
  (qstep env1 qenv1 (qrun env1 qenv1 empty_store program1) (GetOutput "car" [1; 0] [0] 1 "weight")).2 = QRet Exc /\
  t_f1 (qrun env1 qenv1 empty_store program1) !! "car" = Some (10, 10).
Proof. split; [repeat constructor|]. repeat split; vm_compute; reflexivity. Qed.

Example C134_case : forall text, prints qenv1 (qrun env1 qenv1 empty_store program1) text ->
  read_listing text = [("Type f1_3dof: 1 variables", "car"); ("Type scalar: 1 variables", "x");
                       ("Type vector: 1 variables", "v (2)")] /\ lines_of text "" <> [].
Proof.
  intros text (lk & lf & lt & ls & lv & Ik & If & It & Is & Iv & ->). unfold iterates in *.
  vm_compute in Ik, If, It, Is, Iv.
  apply Permutation_nil_r in Ik, It. apply Permutation_singleton_r in If, Is, Iv. subst.
  split; [vm_compute; reflexivity|]. vm_compute. discriminate.
Qed.
Lemma names_in {A} (m : gmap string A) l n a : map_to_list m = l -> m !! n = Some a -> n ∈ l.*1.
Proof. intros <- H. apply elem_of_list_fmap. exists (n, a). split; [reflexivity|]. apply elem_of_map_to_list, H. Qed.
Example C134_names_on_one_line : forall n v, holds (qrun env1 qenv1 empty_store program1) n v -> one_line n.
Proof.
  intros n v H. destruct v as [a|a|a|a|a].
  - apply (names_in (t_kart (qrun env1 qenv1 empty_store program1)) [] n a ltac:(vm_compute; reflexivity)) in H. inversion H.
  - apply (names_in (t_f1 (qrun env1 qenv1 empty_store program1)) [("car", (10, 10))] n a ltac:(vm_compute; reflexivity)) in H.
    apply elem_of_list_singleton in H. subst n. cbn. repeat split; discriminate.
  - apply (names_in (t_track (qrun env1 qenv1 empty_store program1)) [] n a ltac:(vm_compute; reflexivity)) in H. inversion H.
  - apply (names_in (t_scalar (qrun env1 qenv1 empty_store program1)) [("x", 4)] n a ltac:(vm_compute; reflexivity)) in H.
    apply elem_of_list_singleton in H. subst n. cbn. repeat split; discriminate.
  - apply (names_in (t_vector (qrun env1 qenv1 empty_store program1)) [("v", [4; 5])] n a ltac:(vm_compute; reflexivity)) in H.
    apply elem_of_list_singleton in H. subst n. cbn. repeat split; discriminate.
Qed.

(** A name with a line feed can look like two variables. *)
Example C134_line_feed_needed : exists (s : store car car nat nat) text, prints qenv1 s text /\
  size (t_scalar s) = 1 /\ ("Type scalar: 1 variables", "b") ∈ read_listing text /\ free s "b".
Proof.
  set (s := (empty_store : store car car nat nat)).
  exists (set_scalar s {[ "a" +:+ newline +:+ "    -> b" := 1 ]}).
  eexists. split; [eexists [], [], [], [_], []|].
  - unfold iterates. split; [reflexivity|]. split; [reflexivity|]. split; [reflexivity|].
    split; [cbn [t_scalar set_scalar]; rewrite map_to_list_singleton; reflexivity|].
    split; [reflexivity|]. reflexivity.
  - split; [cbn [t_scalar set_scalar]; apply map_size_singleton|]. split.
    + vm_compute. right. left.
    + intros [a|a|a|a|a] H; cbn [holds t_kart t_f1 t_track t_scalar t_vector set_scalar s empty_store] in H;
        try (rewrite lookup_empty in H; discriminate).
      apply lookup_singleton_Some in H. destruct H as [H _]. discriminate.
Qed.

Print Assumptions C134_listing.
Print Assumptions C134_listing_faithful.
Print Assumptions C134_prints_something.
Print Assumptions C134_text.
Print Assumptions C134_file.
Print Assumptions C134_output.
Print Assumptions C134_short_array.
Print Assumptions C135_questions_change_nothing.
Print Assumptions C135_listing.
