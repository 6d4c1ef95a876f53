(** Proofs about the pattern matcher. *)
From Coq Require Import Ascii String List Bool Lia.
From Verif Require Import M_Regex S_Regex.
Import ListNotations.
Local Open Scope char_scope.
Local Open Scope list_scope.


(** Declarative language of an expression. *)
Inductive lang : re -> list ascii -> Prop :=
| lang_eps : lang Eps []
| lang_chr c : lang (Chr c) [c]
| lang_dot c : is_line_terminator c = false -> lang Dot [c]
| lang_cat a b s t : lang a s -> lang b t -> lang (Cat a b) (s ++ t)
| lang_altl a b s : lang a s -> lang (Alt a b) s
| lang_altr a b s : lang b s -> lang (Alt a b) s
| lang_star0 a : lang (Star a) []
| lang_star1 a s t : lang a s -> lang (Star a) t -> lang (Star a) (s ++ t).

Lemma nullable_lang r : nullable r = true <-> lang r [].
Proof.
  induction r; simpl; split; intro H; try discriminate; try (inversion H; fail);
    try (now constructor).
  - apply andb_true_iff in H as [H1 H2].
    change (@nil ascii) with (@nil ascii ++ []). constructor; [now apply IHr1|now apply IHr2].
  - inversion H; subst.
    match goal with E : _ ++ _ = [] |- _ => apply app_eq_nil in E as [-> ->] end.
    apply andb_true_iff; split; [now apply IHr1|now apply IHr2].
  - apply orb_true_iff in H as [H|H]; [apply lang_altl|apply lang_altr];
      [now apply IHr1|now apply IHr2].
  - inversion H; subst; apply orb_true_iff; [left; now apply IHr1|right; now apply IHr2].
Qed.

Lemma star_cons a c s :
  lang (Star a) (c :: s) ->
  exists s1 s2, s = s1 ++ s2 /\ lang a (c :: s1) /\ lang (Star a) s2.
Proof.
  intro H. remember (Star a) as r eqn:Er. remember (c :: s) as w eqn:Ew.
  revert c s Ew. induction H; intros c0 s0 Ew; try discriminate.
  injection Er as ->.
  destruct s as [|x s].
  - simpl in Ew. now apply IHlang2.
  - simpl in Ew. injection Ew as -> <-. exists s, t. auto.
Qed.

Lemma lang_cat_iff a b w :
  lang (Cat a b) w <-> exists s t, w = s ++ t /\ lang a s /\ lang b t.
Proof.
  split.
  - intro H; inversion H; subst; eauto.
  - intros (s & t & -> & H1 & H2); now constructor.
Qed.

Lemma deriv_lang r : forall c s, lang (deriv c r) s <-> lang r (c :: s).
Proof.
  induction r; intros x s; simpl.
  - split; intro H; inversion H.
  - split; intro H; inversion H.
  - destruct (Ascii.eqb_spec x c); subst; split; intro H; inversion H; subst;
      try constructor; congruence.
  - destruct (is_line_terminator x) eqn:E; split; intro H; inversion H; subst;
      try constructor; congruence.
  - assert (Hc : lang (Cat (deriv x r1) r2) s ->
                 lang (Cat r1 r2) (x :: s)).
    { intro H. inversion H; subst. apply IHr1 in H2.
      change (x :: s0 ++ t) with ((x :: s0) ++ t). now constructor. }
    assert (Hd : forall u t, u ++ t = x :: s -> lang r1 u -> lang r2 t ->
               lang (Cat (deriv x r1) r2) s \/ (nullable r1 = true /\ lang (deriv x r2) s)).
    { intros u t E H1 H2. destruct u as [|y u]; simpl in E.
      - right. subst. split; [now apply nullable_lang | now apply IHr2].
      - left. injection E as -> <-. constructor; [now apply IHr1 | assumption]. }
    destruct (nullable r1) eqn:E; split; intro H.
    + inversion H; subst; [now apply Hc|].
      change (x :: s) with ([] ++ (x :: s)). constructor;
        [now apply nullable_lang | now apply IHr2].
    + apply lang_cat_iff in H as (u & t & Eu & H1 & H2).
      destruct (Hd u t (eq_sym Eu) H1 H2) as [H5|[_ H5]];
        [now apply lang_altl | now apply lang_altr].
    + now apply Hc.
    + apply lang_cat_iff in H as (u & t & Eu & H1 & H2).
      destruct (Hd u t (eq_sym Eu) H1 H2) as [H5|[H5 _]]; congruence.
  - split; intro H; inversion H; subst;
      try (apply lang_altl; now apply IHr1); try (apply lang_altr; now apply IHr2).
  - split; intro H.
    + inversion H; subst. apply IHr in H2.
      change (x :: s0 ++ t) with ((x :: s0) ++ t). now constructor.
    + apply star_cons in H as (s1 & s2 & -> & H1 & H2).
      constructor; [now apply IHr | assumption].
Qed.

Lemma regex_match_lang s : forall r, regex_match r s = true <-> lang r s.
Proof.
  induction s as [|c s IH]; intro r; simpl.
  - apply nullable_lang.
  - rewrite IH. apply deriv_lang.
Qed.

(** Language of a frame: what the current alternative accepts. *)
Lemma close_seq_push f a w :
  lang (close_seq (push_atom f a)) w <->
  exists s t, w = s ++ t /\ lang (close_seq f) s /\ lang a t.
Proof. unfold push_atom, close_seq at 1; simpl. apply lang_cat_iff. Qed.

Lemma is_syntax_false c : plain c <-> is_syntax c = false.
Proof.
  unfold plain, is_syntax, syntax_chars. split.
  - intro H. apply not_true_iff_false. intro E. apply existsb_exists in E as (d & Hd & E).
    apply Ascii.eqb_eq in E; subst. auto.
  - intros H Hin. apply not_true_iff_false in H. apply H.
    apply existsb_exists. exists c. split; [assumption | apply Ascii.eqb_refl].
Qed.

Lemma parse_plain c s top stk :
  plain c -> parse (c :: s) top stk = parse s (push_atom top (Chr c)) stk.
Proof.
  intro Hp. simpl.
  assert (N : forall d, In d syntax_chars -> Ascii.eqb c d = false).
  { intros d Hd. apply Ascii.eqb_neq. intros ->. apply Hp. exact Hd. }
  rewrite !N by (unfold syntax_chars; simpl; tauto). reflexivity.
Qed.

Lemma plain_not_star c : plain c -> Ascii.eqb c "*" = false.
Proof. intro H. apply Ascii.eqb_neq. intros ->. apply H. simpl; tauto. Qed.

Lemma plain_not_dot c : plain c -> Ascii.eqb c "." = false.
Proof. intro H. apply Ascii.eqb_neq. intros ->. apply H. simpl; tauto. Qed.

Lemma no_newline_cons c w :
  no_newline (c :: w) <-> is_line_terminator c = false /\ no_newline w.
Proof.
  unfold no_newline, is_line_terminator. rewrite orb_false_iff, !Ascii.eqb_neq.
  cbn [In]. intuition congruence.
Qed.

Lemma star_dot w : lang (Star Dot) w <-> no_newline w.
Proof.
  induction w as [|c w IH].
  - split; intro; [split; intros []|constructor].
  - rewrite no_newline_cons, <- IH. split.
    + intro H. apply star_cons in H as (s1 & s2 & -> & H1 & H2).
      inversion H1; subst. auto.
    + intros [H1 H2]. change (c :: w) with ([c] ++ w). constructor; [now constructor|auto].
Qed.

Lemma glob_star_inv p x :
  glob ("*" :: p) x -> exists w s, x = w ++ s /\ no_newline w /\ glob p s.
Proof. intro G; inversion G; subst; [congruence | eauto]. Qed.

Lemma dotted_dot_inv p x :
  dotted ("." :: p) x -> exists d s, x = d :: s /\ is_line_terminator d = false /\ dotted p s.
Proof.
  intro G; inversion G as [|? ? ? Hc|? ? ? Hn]; subst; [congruence |].
  apply no_newline_cons in Hn as [Hn _]. eauto.
Qed.

(** Generic lemma: the parser on a list of tokens that only push atoms. *)
Lemma parse_glob p : forall top,
  Forall plain_or_star p -> f_alts top = None ->
  exists r, parse (expand_stars p) top [] = ROk r /\
    forall w, lang r w <-> exists s t, w = s ++ t /\ lang (close_seq top) s /\ glob p t.
Proof.
  induction p as [|c p IH]; intros top HF Ha.
  - simpl. eexists; split; [reflexivity|]. intro w. unfold close_alt. rewrite Ha.
    split.
    + intro H. exists w, []. rewrite app_nil_r. repeat split; auto. constructor.
    + intros (s & t & -> & H & G). inversion G; subst. now rewrite app_nil_r.
  - inversion HF as [|? ? Hc Hp]; subst. destruct Hc as [Hc | ->].
    + simpl expand_stars. rewrite (plain_not_star c Hc). rewrite (parse_plain c) by assumption.
      destruct (IH (push_atom top (Chr c)) Hp Ha) as (r & E & HL).
      exists r; split; [exact E|]. intro w. rewrite HL. split.
      * intros (s & t & -> & H & G). apply close_seq_push in H as (s1 & s2 & -> & H1 & H2).
        inversion H2; subst. exists s1, (c :: t). rewrite <- app_assoc. repeat split; auto.
        constructor; [|assumption]. intros ->. apply Hc; simpl; tauto.
      * intros (s & t & -> & H & G). inversion G; subst.
        -- exists (s ++ [c]), s0. rewrite <- app_assoc. repeat split; auto.
           apply close_seq_push. exists s, [c]. repeat split; auto. constructor.
        -- exfalso. apply Hc; simpl; tauto.
    + simpl expand_stars. cbn [parse]. simpl Ascii.eqb. cbv iota.
      unfold quantify, push_atom; simpl f_last; simpl f_alts; simpl f_seq. cbv iota.
      set (top' := Frame (f_alts top) (close_seq top) (Some (Star Dot, 1))).
      destruct (IH top' Hp Ha) as (r & E & HL).
      exists r; split; [exact E|]. intro w. rewrite HL. split.
      * intros (s & t & -> & H & G). unfold top', close_seq in H; simpl in H.
        apply lang_cat_iff in H as (s1 & s2 & -> & H1 & H2). apply star_dot in H2.
        exists s1, (s2 ++ t). rewrite <- app_assoc. repeat split; auto. now constructor.
      * intros (s & t & -> & H & G). apply glob_star_inv in G as (w0 & s0 & -> & Hw & G).
        exists (s ++ w0), s0. rewrite <- app_assoc. repeat split; auto.
        unfold top', close_seq; simpl. apply lang_cat_iff. exists s, w0.
        repeat split; auto. now apply star_dot.
Qed.

Lemma parse_dotted p : forall top,
  Forall plain_or_dot p -> f_alts top = None ->
  exists r, parse (expand_stars p) top [] = ROk r /\
    forall w, lang r w <-> exists s t, w = s ++ t /\ lang (close_seq top) s /\ dotted p t.
Proof.
  induction p as [|c p IH]; intros top HF Ha.
  - simpl. eexists; split; [reflexivity|]. intro w. unfold close_alt. rewrite Ha.
    split.
    + intro H. exists w, []. rewrite app_nil_r. repeat split; auto. constructor.
    + intros (s & t & -> & H & G). inversion G; subst. now rewrite app_nil_r.
  - inversion HF as [|? ? Hc Hp]; subst. destruct Hc as [Hc | ->].
    + simpl expand_stars. rewrite (plain_not_star c Hc). rewrite (parse_plain c) by assumption.
      destruct (IH (push_atom top (Chr c)) Hp Ha) as (r & E & HL).
      exists r; split; [exact E|]. intro w. rewrite HL. split.
      * intros (s & t & -> & H & G). apply close_seq_push in H as (s1 & s2 & -> & H1 & H2).
        inversion H2; subst. exists s1, (c :: t). rewrite <- app_assoc. repeat split; auto.
        constructor; [|assumption]. intros ->. apply Hc; simpl; tauto.
      * intros (s & t & -> & H & G). inversion G; subst.
        -- exists (s ++ [c]), s0. rewrite <- app_assoc. repeat split; auto.
           apply close_seq_push. exists s, [c]. repeat split; auto. constructor.
        -- exfalso. apply Hc; simpl; tauto.
    + simpl expand_stars. cbn [parse]. simpl Ascii.eqb. cbv iota.
      destruct (IH (push_atom top Dot) Hp Ha) as (r & E & HL).
      exists r; split; [exact E|]. intro w. rewrite HL. split.
      * intros (s & t & -> & H & G). apply close_seq_push in H as (s1 & s2 & -> & H1 & H2).
        inversion H2; subst. exists s1, (c :: t). rewrite <- app_assoc. repeat split; auto.
        constructor; [|assumption]. apply no_newline_cons. split; [assumption|split; intros []].
      * intros (s & t & -> & H & G). apply dotted_dot_inv in G as (d & s0 & -> & Hd & G).
        exists (s ++ [d]), s0. rewrite <- app_assoc. repeat split; auto.
        apply close_seq_push. exists s, [d]. repeat split; auto.
        now constructor.
Qed.

Lemma compile_glob p :
  all_chars plain_or_star p ->
  exists r, compile p = ROk r /\ forall n, matches_name r n = true <-> glob_name p n.
Proof.
  intro H. destruct (parse_glob (list_ascii_of_string p) empty_frame H eq_refl) as (r & E & HL).
  exists r; split; [exact E|]. intro n. unfold matches_name, glob_name.
  rewrite regex_match_lang, HL. split.
  - intros (s & t & E' & H1 & H2). inversion H1; subst. simpl in E'. now rewrite E'.
  - intro G. exists [], (list_ascii_of_string n). repeat split; auto. constructor.
Qed.

Lemma compile_dotted p :
  all_chars plain_or_dot p ->
  exists r, compile p = ROk r /\ forall n, matches_name r n = true <-> dotted_name p n.
Proof.
  intro H. destruct (parse_dotted (list_ascii_of_string p) empty_frame H eq_refl) as (r & E & HL).
  exists r; split; [exact E|]. intro n. unfold matches_name, dotted_name.
  rewrite regex_match_lang, HL. split.
  - intros (s & t & E' & H1 & H2). inversion H1; subst. simpl in E'. now rewrite E'.
  - intro G. exists [], (list_ascii_of_string n). repeat split; auto. constructor.
Qed.

Lemma glob_plain p s : Forall plain p -> glob p s <-> s = p.
Proof.
  revert s. induction p as [|c p IH]; intros s H.
  - split; [intro G; now inversion G | intros ->; constructor].
  - inversion H; subst. split.
    + intro G; inversion G; subst.
      * f_equal. now apply IH.
      * exfalso. apply H2; simpl; tauto.
    + intros ->. constructor; [|now apply IH]. intros ->. apply H2; simpl; tauto.
Qed.

Lemma list_ascii_inj a b : list_ascii_of_string a = list_ascii_of_string b -> a = b.
Proof.
  intro H. rewrite <- (string_of_list_ascii_of_string a), <- (string_of_list_ascii_of_string b).
  now rewrite H.
Qed.

Lemma compile_plain p :
  all_chars plain p ->
  exists r, compile p = ROk r /\ forall n, matches_name r n = true <-> n = p.
Proof.
  intro H. destruct (compile_glob p) as (r & E & HL).
  - eapply Forall_impl; [|exact H]. intros c Hc. now left.
  - exists r; split; [exact E|]. intro n. rewrite HL. unfold glob_name.
    rewrite glob_plain by exact H. split; [apply list_ascii_inj | now intros ->].
Qed.

Lemma dotted_refl p : all_chars plain_or_dot p -> dotted_name p p.
Proof.
  unfold all_chars, dotted_name. induction (list_ascii_of_string p) as [|c l IH]; intro H.
  - constructor.
  - inversion H; subst. destruct H2 as [Hc | ->].
    + constructor; auto. intros ->. apply Hc; simpl; tauto.
    + apply dotted_dot; auto. apply no_newline_cons. split; [reflexivity | split; intros []].
Qed.
