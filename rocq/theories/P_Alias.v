(** C95: aliases of a varying parameter. C96: trimming. *)
From Coq Require Import Ascii String Bool Arith Lia List.
From Verif Require Import M_Regex M_Store M_Alias S_Alias.
Import ListNotations.
Local Open Scope char_scope.
Local Open Scope list_scope.

Lemma join_pieces t : join (pieces t) = t /\ pieces t <> [].
Proof.
  induction t as [|c t [IH N]]; [split; [reflexivity|discriminate]|]. cbn [pieces].
  destruct (Ascii.eqb_spec c ";") as [->|].
  - split; [|discriminate]. destruct (pieces t) as [|p ps]; [congruence|]. cbn [join app]. now rewrite <- IH.
  - destruct (pieces t) as [|p ps]; [congruence|]. split; [|discriminate]. destruct ps; cbn [join app] in *; now rewrite <- IH.
Qed.

Lemma pieces_app p s : ~ In ";" p -> pieces (p ++ s) = match pieces s with q :: ps => (p ++ q) :: ps | [] => [p] end.
Proof.
  induction p as [|c p IH]; intro H; cbn [app].
  - pose proof (proj2 (join_pieces s)). destruct (pieces s); [congruence|reflexivity].
  - cbn [pieces]. destruct (Ascii.eqb_spec c ";") as [->|]; [exfalso; apply H; now left|].
    rewrite IH by (intro; apply H; now right). destruct (pieces s); reflexivity.
Qed.

Lemma pieces_join ps : ps <> [] -> Forall (fun p => ~ In ";" p) ps -> pieces (join ps) = ps.
Proof.
  intros N F. induction F as [|p ps Hp F IH]; [congruence|]. destruct ps as [|q ps].
  - cbn [join]. rewrite <- (app_nil_r p) at 1. rewrite pieces_app by assumption. cbn. now rewrite app_nil_r.
  - change (join (p :: q :: ps)) with (p ++ ";" :: join (q :: ps)). rewrite pieces_app by assumption.
    cbn [pieces]. rewrite IH by discriminate. rewrite Ascii.eqb_refl. now rewrite app_nil_r.
Qed.

Lemma no_terminators_app a b : no_terminators (a ++ b) <-> no_terminators a /\ no_terminators b.
Proof.
  unfold no_terminators. split.
  - intro H. split; intros c Hc; apply H; apply in_app_iff; auto.
  - intros [H1 H2] c Hc. apply in_app_iff in Hc. destruct Hc; auto.
Qed.

(** One step of the loop. *)
Lemma search_piece p r : no_terminators p -> ~ In ";" p -> ltrim p <> [] -> search (p ++ ";" :: r) = Some (ltrim p, r).
Proof.
  induction p as [|c p IH]; intros H1 H2 H3; [now exfalso; apply H3|]. cbn [app search ltrim] in *.
  assert (H1' : no_terminators p) by (intros x Hx; apply H1; now right).
  assert (H2' : ~ In ";" p) by (intro; apply H2; now right).
  destruct (is_space c); [now apply IH|].
  assert (E : to_semicolon (p ++ ";" :: r) = Some (p, r)).
  { clear - H1' H2'. induction p as [|x p IH]; [reflexivity|]. cbn [app to_semicolon].
    destruct (Ascii.eqb_spec x ";") as [->|]; [exfalso; apply H2'; now left|].
    rewrite (H1' x) by now left. rewrite IH; [reflexivity| |].
    - intros y Hy; apply H1'; now right.
    - intro; apply H2'; now right. }
  now rewrite E.
Qed.

Lemma search_none s : ~ In ";" s -> search s = None.
Proof.
  assert (T : forall t, ~ In ";" t -> to_semicolon t = None).
  { induction t as [|c t IH]; intro H; [reflexivity|]. cbn [to_semicolon].
    destruct (Ascii.eqb_spec c ";") as [->|]; [exfalso; apply H; now left|].
    rewrite IH by (intro; apply H; now right). now destruct (is_line_terminator c). }
  induction s as [|c s IH]; intro H; [reflexivity|]. cbn [search].
  rewrite T by (intro; apply H; now right). rewrite IH by (intro; apply H; now right). now destruct (is_space c).
Qed.

Lemma split_loop_pieces ps last : Forall (fun p => no_terminators p /\ ~ In ";" p /\ ltrim p <> []) ps -> ~ In ";" last ->
  forall fuel, List.length ps <= fuel -> split_loop fuel (join (ps ++ [last])) = map ltrim ps ++ [last_alias last].
Proof.
  intros F Hl. induction F as [|p ps [H1 [H2 H3]] F IH]; intros fuel Hf.
  - cbn [app join map]. destruct fuel; [reflexivity|]. cbn [split_loop]. now rewrite search_none.
  - destruct fuel as [|fuel]; [cbn in Hf; lia|].
    assert (E : join ((p :: ps) ++ [last]) = p ++ ";" :: join (ps ++ [last])).
    { cbn [app]. destruct ps; reflexivity. }
    rewrite E. cbn [split_loop]. rewrite search_piece by assumption. cbn [map app]. f_equal. apply IH. cbn in Hf. lia.
Qed.

Lemma length_join ps : List.length ps <= S (List.length (join ps)).
Proof.
  induction ps as [|p ps IH]; [cbn; lia|]. destruct ps as [|q ps]; [cbn; lia|].
  change (join (p :: q :: ps)) with (p ++ ";" :: join (q :: ps)). rewrite app_length. cbn [List.length] in *. lia.
Qed.

Lemma length_list s : List.length (list_ascii_of_string s) = String.length s.
Proof. induction s; cbn; congruence. Qed.

(** What the call does with every text without line terminators whose pieces, but the last, are not blank: each piece loses the white space before it, the last one the
    spaces around it. *)
Theorem C95_pieces_partial s ps last : no_terminators (list_ascii_of_string s) ->
  pieces (list_ascii_of_string s) = ps ++ [last] ->
  Forall (fun p => exists c, In c p /\ is_space c = false) ps ->
  map list_ascii_of_string (unwrap_aliases s) = map ltrim ps ++ [last_alias last].
Proof.
  intros HT HP HF. unfold unwrap_aliases. rewrite map_map.
  rewrite (map_ext _ (fun x => x)) by (intro; apply list_ascii_of_string_of_list_ascii). rewrite map_id.
  pose proof (proj1 (join_pieces (list_ascii_of_string s))) as J. rewrite HP in J.
  assert (C : forall t, Forall (fun p => ~ In ";" p) (pieces t)).
  { clear. induction t as [|c t IH]; cbn [pieces]; [repeat constructor; intros []|].
    destruct (Ascii.eqb_spec c ";"); [constructor; [intros []|exact IH]|].
    destruct IH as [|p ps Hp IH]; constructor; auto; cbn; intros [E|E]; auto; contradiction. }
  specialize (C (list_ascii_of_string s)). rewrite HP in C. apply Forall_app in C as [C1 C2]. inversion C2; subst.
  assert (T : forall p, In p ps -> no_terminators p).
  { intros p Hp. apply in_split in Hp as (a & b & ->). intros c Hc. apply HT. rewrite <- J.
    assert (G : forall qs p, In p qs -> forall c, In c p -> In c (join qs)).
    { clear. induction qs as [|q qs IH]; [intros ? []|]. intros p [->|Hp] c Hc; destruct qs as [|q' qs].
      - exact Hc.
      - cbn [join]. apply in_app_iff. now left.
      - destruct Hp.
      - change (join (q :: q' :: qs)) with (q ++ ";" :: join (q' :: qs)). apply in_app_iff. right. right. now apply (IH p). }
    apply (G _ p); [|exact Hc]. apply in_app_iff. left. apply in_app_iff. right. now left. }
  rewrite <- J at 1. rewrite <- length_list, <- J at 1. apply split_loop_pieces; [|assumption|].
  - rewrite Forall_forall in *. intros p Hp. split; [now apply T|]. split; [now apply C1|].
    destruct (HF p Hp) as (c & Hc & Hs). clear - Hc Hs. induction p as [|x p IH]; [destruct Hc|]. cbn [ltrim].
    destruct (is_space x) eqn:E; [|discriminate]. apply IH. destruct Hc as [->|Hc]; [congruence|exact Hc].
  - pose proof (length_join (ps ++ [last])) as L. rewrite app_length in L. cbn [List.length] in L. lia.
Qed.

Lemma squeeze_clean s : forall b, (forall a r, s <> a ++ " " :: " " :: r) -> (exists c r, s = r ++ [c] /\ is_space c = false) ->
  (b = true -> forall r, s <> " " :: r) -> squeeze b s = s.
Proof.
  induction s as [|c s IH]; intros b H1 H2 H3; [reflexivity|]. cbn [squeeze].
  assert (H1' : forall a r, s <> a ++ " " :: " " :: r) by (intros a r E; apply (H1 (c :: a) r); now rewrite E).
  destruct H2 as (d & r & E & Hd).
  assert (H2' : s <> [] -> exists d r, s = r ++ [d] /\ is_space d = false).
  { intro N. destruct r as [|y r]; [injection E as -> ->; congruence|]. injection E as -> ->. now exists d, r. }
  destruct (Ascii.eqb_spec c " ") as [->|N].
  - destruct s as [|x s].
    { destruct r as [|y r]; [injection E as <-; discriminate|]. destruct r; discriminate. }
    assert (A : forallb (Ascii.eqb " ") (x :: s) = false).
    { destruct r as [|y r]; [discriminate|]. injection E as _ E. rewrite E. rewrite forallb_app. cbn [forallb].
      destruct (Ascii.eqb_spec " " d) as [<-|]; [discriminate|]. now rewrite andb_false_r. }
    rewrite A. destruct b; [exfalso; exact (H3 eq_refl _ eq_refl)|]. f_equal. apply IH; [exact H1'|apply H2'; discriminate|].
    intros _ t Et. injection Et as -> ->. exact (H1 [] t eq_refl).
  - f_equal. destruct s as [|x s]; [reflexivity|]. apply IH; [exact H1'|apply H2'; discriminate|discriminate].
Qed.

Lemma drop_spaces_blanks b s : blanks b -> (forall r, s <> " " :: r) -> drop_spaces (b ++ s) = s.
Proof.
  intros H N. induction b as [|c b IH]; cbn [app].
  - destruct s as [|c s]; [reflexivity|]. cbn. destruct (Ascii.eqb_spec c " ") as [->|]; [exfalso; exact (N s eq_refl)|reflexivity].
  - rewrite (H c) by now left. cbn [drop_spaces]. rewrite Ascii.eqb_refl. apply IH. intros x Hx. apply H. now right.
Qed.

Lemma ltrim_blanks b s : blanks b -> (exists c r, s = c :: r /\ is_space c = false) -> ltrim (b ++ s) = s.
Proof.
  intros H (c & r & -> & Hc). induction b as [|x b IH]; cbn [app ltrim]; [now rewrite Hc|].
  rewrite (H x) by now left. change (is_space " ") with true. cbn iota. apply IH. intros y Hy. apply H. now right.
Qed.

(** Clean names, each with any number of spaces before it, separated by semicolons: the aliases are the names. *)
Theorem C95_names_partial (names : list (list ascii)) (before : list (list ascii)) s :
  names <> [] -> Forall clean names -> Forall blanks before -> List.length before = List.length names ->
  list_ascii_of_string s = join (map (fun bn => fst bn ++ snd bn) (combine before names)) ->
  unwrap_aliases s = map string_of_list_ascii names.
Proof.
  intros N HC HB HL HS.
  assert (X : map list_ascii_of_string (unwrap_aliases s) = names).
  { set (g := fun bn : list ascii * list ascii => fst bn ++ snd bn) in *.
    destruct (exists_last N) as (ns & n & ->). rewrite app_length in HL. cbn in HL.
    assert (Nb : before <> []) by (intros ->; cbn in HL; lia).
    destruct (exists_last Nb) as (bs & b & ->). rewrite app_length in HL. cbn in HL.
    assert (HL' : List.length bs = List.length ns) by lia. clear HL N Nb.
    assert (CA : forall (b1 : list (list ascii)) (n1 : list (list ascii)), List.length b1 = List.length n1 ->
       combine (b1 ++ [b]) (n1 ++ [n]) = combine b1 n1 ++ [(b, n)]).
    { induction b1 as [|y b1 IH]; intros [|z n1] E; try discriminate; [reflexivity|]. cbn. f_equal. apply IH. now injection E. }
    rewrite CA, map_app in HS by exact HL'. cbn [map] in HS. clear CA.
    apply Forall_app in HC as [HC1 HC2]. inversion HC2 as [|? ? HC3 _]; subst. clear HC2.
    apply Forall_app in HB as [HB1 HB2]. inversion HB2 as [|? ? HB3 _]; subst. clear HB2.
    assert (SC : forall x y, blanks x -> clean y -> ~ In ";" (x ++ y)).
    { intros x y Hx Hy I. apply in_app_iff in I as [I|I]; [apply Hx in I; discriminate|exact (c_semicolon _ Hy I)]. }
    assert (ST : forall x y, blanks x -> clean y -> no_terminators (x ++ y)).
    { intros x y Hx Hy. apply no_terminators_app. split; [|exact (c_terminator _ Hy)]. intros c Hc. apply Hx in Hc. now subst. }
    assert (P : Forall (fun p => no_terminators p /\ ~ In ";" p /\ exists c, In c p /\ is_space c = false) (map g (combine bs ns))).
    { clear - HC1 HB1 SC ST. revert ns HC1. induction HB1 as [|x bs Hx HB IH]; intros ns HC; [constructor|].
      destruct HC as [|y ns Hy HC]; [constructor|]. cbn [combine map]. constructor; [|now apply IH].
      unfold g. cbn [fst snd]. split; [now apply ST|]. split; [now apply SC|].
      destruct (c_first _ Hy) as (c & r & -> & Hc). exists c. split; [apply in_app_iff; right; now left|exact Hc]. }
    rewrite (C95_pieces_partial s (map g (combine bs ns)) (g (b, n))).
    - f_equal.
      + rewrite map_map. clear - HC1 HB1 HL'. revert ns HC1 HL'. induction HB1 as [|x bs Hx HB IH]; intros [|y ns] HC HL; try discriminate; [reflexivity|].
        inversion HC; subst. cbn [combine map]. f_equal; [|apply IH; auto].
        unfold g. cbn [fst snd]. apply ltrim_blanks; [exact Hx|]. now apply c_first.
      + f_equal. unfold last_alias, g. cbn [fst snd]. rewrite drop_spaces_blanks; [|exact HB3|].
        * apply squeeze_clean; [now apply c_spaces|now apply c_last|discriminate].
        * intros r E. destruct (c_first _ HC3) as (c & r' & E' & Hc). rewrite E in E'. injection E' as <- _. discriminate.
    - rewrite HS. intros c Hc.
      assert (G : forall qs, Forall no_terminators qs -> forall x, In x (join qs) -> is_line_terminator x = false).
      { clear. intros qs HF. induction HF as [|q qs Hq HF IH]; [intros ? []|]. destruct qs as [|q' qs]; [exact Hq|].
        change (join (q :: q' :: qs)) with (q ++ ";" :: join (q' :: qs)). intros x Hx. apply in_app_iff in Hx as [Hx|[<-|Hx]]; auto. }
      apply (G (map g (combine bs ns) ++ [g (b, n)])); [|exact Hc]. apply Forall_app. split.
      + eapply Forall_impl; [|exact P]. now intros ? [? _].
      + constructor; [now apply ST|constructor].
    - rewrite HS. apply pieces_join; [now destruct (map g (combine bs ns))|]. apply Forall_app. split.
      + eapply Forall_impl; [|exact P]. now intros ? [_ [? _]].
      + constructor; [now apply SC|constructor].
    - eapply Forall_impl; [|exact P]. now intros ? [_ [_ ?]]. }
  rewrite <- X, map_map. rewrite (map_ext _ (fun x => x)); [now rewrite map_id|]. apply string_of_list_ascii_of_string.
Qed.

(** So the parameter is declared with the aliases the user listed. *)
Theorem C95_declared_partial {K F T N : Type} (e : env K F T N) (st : store K F T N) n p s names before values mesh :
  names <> [] -> Forall clean names -> Forall blanks before -> List.length before = List.length names ->
  list_ascii_of_string s = join (map (fun bn => fst bn ++ snd bn) (combine before names)) ->
  declare_variable e st n p s values mesh =
  vehicle_declare_variable e st n p (map string_of_list_ascii names) values mesh.
Proof. intros. unfold declare_variable. now rewrite (C95_names_partial names before s). Qed.

Local Open Scope string_scope.
(** Spaces after a name that is not the last one become part of the alias ... *)
Theorem C95_trailing_space_refuted : unwrap_aliases "key1 ; key2 " = ["key1 "; "key2"].
Proof. reflexivity. Qed.
(** ... an empty name is not an alias and its semicolon becomes part of the next one ... *)
Theorem C95_empty_name_refuted : unwrap_aliases "key1;;key2;key3" = ["key1"; ";key2"; "key3"].
Proof. reflexivity. Qed.
(** ... and two spaces inside the last name are one in the alias, but not inside the others. *)
Theorem C95_inner_spaces_refuted : unwrap_aliases "a  b;c  d" = ["a  b"; "c d"].
Proof. reflexivity. Qed.

Example ex_names : exists before names,
  names <> [] /\ Forall clean names /\ Forall blanks before /\ List.length before = List.length names /\
  list_ascii_of_string "Fz_max1; Fz max2;  key3" = join (map (fun bn => (fst bn ++ snd bn)%list) (combine before names)) /\
  map string_of_list_ascii names = ["Fz_max1"; "Fz max2"; "key3"].
Proof.
  exists [[]; [" "%char]; [" "; " "]%char], (map list_ascii_of_string ["Fz_max1"; "Fz max2"; "key3"]).
  assert (D : forall (l a : list ascii) b, l = (a ++ " "%char :: " "%char :: b)%list ->
     existsb (fun i => Ascii.eqb (nth i l "x"%char) " " && Ascii.eqb (nth (S i) l "x"%char) " ") (seq 0 (List.length l)) = true).
  { intros l a b ->. apply existsb_exists. exists (List.length a). split.
    - apply in_seq. rewrite app_length. cbn. lia.
    - rewrite !app_nth2 by lia. replace (List.length a - List.length a) with 0 by lia. replace (S (List.length a) - List.length a) with 1 by lia. reflexivity. }
  assert (T : forall l, forallb (fun c => negb (is_line_terminator c) && negb (Ascii.eqb c ";")) l = true -> no_terminators l /\ ~ In ";"%char l).
  { intros l H. rewrite forallb_forall in H. split.
    - intros c Hc. specialize (H c Hc). apply andb_prop in H as [H _]. now apply negb_true_iff in H.
    - intro I. specialize (H _ I). discriminate. }
  split; [discriminate|]. split.
  - cbn [map]. repeat (constructor; [|]); try constructor;
      try (match goal with |- exists c r, ?l = c :: r /\ _ => cbn; eexists _, _; split; reflexivity end);
      try (match goal with |- exists c r, ?l = (r ++ [c])%list /\ _ => exists (last l "x"%char), (removelast l); split; reflexivity end);
      try (apply T; reflexivity);
      try (intros a b E; apply D in E; vm_compute in E; discriminate).
  - split; [|split; [reflexivity|split; reflexivity]].
    repeat constructor; intros c Hc; cbn in Hc; repeat destruct Hc as [<-|Hc]; try reflexivity; destruct Hc.
Qed.

(** ** C96 *)

Lemma forallb_space_ltrim s : forallb is_space s = true -> ltrim s = [].
Proof. induction s as [|c s IH]; [reflexivity|]. cbn. destruct (is_space c); [exact IH|discriminate]. Qed.

Lemma rtrim_spec s : exists b, s = (rtrim s ++ b)%list /\ forallb is_space b = true /\
  (rtrim s = [] \/ exists r c, rtrim s = (r ++ [c])%list /\ is_space c = false).
Proof.
  induction s as [|c s (b & E & Hb & Ht)]; [exists []; auto|]. cbn [rtrim].
  destruct (forallb is_space (c :: s)) eqn:A; [exists (c :: s); auto|].
  exists b. split; [cbn; now f_equal|]. split; [exact Hb|]. right. destruct Ht as [Ht|(r & d & Ht & Hd)].
  - exists [], c. rewrite Ht. split; [reflexivity|]. rewrite Ht in E. cbn in E. subst s. cbn in A. rewrite Hb, andb_true_r in A. exact A.
  - exists (c :: r), d. rewrite Ht. split; [reflexivity|exact Hd].
Qed.

Lemma ltrim_spec s : exists a, s = (a ++ ltrim s)%list /\ forallb is_space a = true /\
  (ltrim s = [] \/ exists c r, ltrim s = c :: r /\ is_space c = false).
Proof.
  induction s as [|c s (a & E & Ha & Ht)]; [exists []; auto|]. cbn [ltrim]. destruct (is_space c) eqn:Hc.
  - exists (c :: a). split; [cbn; now f_equal|]. split; [cbn; now rewrite Hc|exact Ht].
  - exists []. split; [reflexivity|]. split; [reflexivity|]. right. now exists c, s.
Qed.

(** The trimmed text is the given one without white space at its ends: only white space is removed, and all of it. *)
Theorem C96_trim s : exists a b,
  list_ascii_of_string s = (a ++ list_ascii_of_string (trim s) ++ b)%list /\
  forallb is_space a = true /\ forallb is_space b = true /\
  (trim s = "" \/ (exists c r, list_ascii_of_string (trim s) = c :: r /\ is_space c = false) /\
                  (exists r c, list_ascii_of_string (trim s) = (r ++ [c])%list /\ is_space c = false)).
Proof.
  unfold trim. rewrite list_ascii_of_string_of_list_ascii.
  destruct (rtrim_spec (list_ascii_of_string s)) as (b & E1 & Hb & H1).
  destruct (ltrim_spec (rtrim (list_ascii_of_string s))) as (a & E2 & Ha & H2).
  set (x := rtrim (list_ascii_of_string s)) in *. exists a, b. split; [rewrite E1, E2 at 1; now rewrite <- app_assoc|].
  split; [exact Ha|]. split; [exact Hb|]. destruct H2 as [H2|H2]; [left; now rewrite H2|]. right. split; [exact H2|].
  destruct H2 as (c & r & H2 & Hc). destruct H1 as [H1|(r' & d & H1 & Hd)].
  - rewrite H1 in H2. discriminate.
  - rewrite H2 in *. clear - E2 H1 Hd. rewrite H1 in E2.
    destruct (exists_last (l := c :: r)) as (l & z & E); [discriminate|]. rewrite E in *.
    rewrite app_assoc in E2. apply app_inj_tail in E2 as [_ <-]. now exists l, d.
Qed.

(** Trimming twice is trimming once. *)
Theorem C96_trim_idempotent s : trim (trim s) = trim s.
Proof.
  destruct (C96_trim s) as (a & b & _ & _ & _ & H). destruct H as [->|[(c & r & E & Hc) (r' & d & E' & Hd)]]; [reflexivity|].
  set (t := trim s) in *. unfold trim. 
  assert (R : rtrim (list_ascii_of_string t) = list_ascii_of_string t).
  { rewrite E'. clear - Hd. induction r' as [|x r' IH]; cbn [app rtrim].
    - cbn. now rewrite Hd.
    - rewrite IH. replace (forallb is_space (x :: r' ++ [d])) with false; [reflexivity|].
      cbn [forallb]. rewrite forallb_app. cbn. rewrite Hd. now rewrite !andb_false_r. }
  rewrite R. rewrite E. cbn [ltrim]. rewrite Hc. rewrite <- E. apply string_of_list_ascii_of_string.
Qed.
Example ex_trim : trim "  run 1/
 " = "run 1/".
Proof. reflexivity. Qed.

Print Assumptions C95_pieces_partial.
Print Assumptions C95_names_partial.
Print Assumptions C95_declared_partial.
Print Assumptions C95_trailing_space_refuted.
Print Assumptions C95_empty_name_refuted.
Print Assumptions C95_inner_spaces_refuted.
Print Assumptions C96_trim.
Print Assumptions C96_trim_idempotent.
