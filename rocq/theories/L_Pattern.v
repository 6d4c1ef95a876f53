(** Proofs about the patterns of delete_variable. *)
From Coq Require Import Ascii String List Bool Arith Lia.
From Verif Require Import M_Regex S_Regex L_Regex S_Pattern.
Import ListNotations.
Local Open Scope char_scope.
Local Open Scope list_scope.

Scheme term_mut := Induction for term Sort Prop
with seq_mut := Induction for seq Sort Prop
with alts_mut := Induction for alts Sort Prop.
Combined Scheme pattern_mut from term_mut, seq_mut, alts_mut.

Lemma expand_app u v : expand_stars (u ++ v) = expand_stars u ++ expand_stars v.
Proof. induction u as [|c u IH]; simpl; [reflexivity|]. rewrite IH. now destruct (Ascii.eqb c "*"). Qed.

Lemma alnum_spec c : is_alnum c = true <-> letter_or_digit c.
Proof.
  unfold is_alnum, between, letter_or_digit. rewrite !orb_true_iff, !andb_true_iff, !Nat.leb_le. tauto.
Qed.

(** No pattern begins with a question mark. *)
Definition head_ok (l : list ascii) : Prop := match l with c :: _ => c <> "?" | [] => True end.
Lemma heads :
  (forall t, term_legal t -> exists c l, expand_stars (term_text t) = c :: l /\ c <> "?") /\
  (forall q, seq_legal q -> forall rest, head_ok rest -> head_ok (expand_stars (seq_text q) ++ rest)) /\
  (forall a, alts_legal a -> forall rest, head_ok rest -> head_ok (expand_stars (alts_text a) ++ rest)).
Proof.
  apply pattern_mut; cbn [term_legal seq_legal alts_legal term_text seq_text alts_text].
  - intros c H. simpl. rewrite (plain_not_star c H). exists c, []. split; [reflexivity|].
    intros ->. apply H. simpl. tauto.
  - intros _. simpl. exists ".", []. split; [reflexivity|discriminate].
  - intros _. simpl. exists ".", ["*"]. split; [reflexivity|discriminate].
  - intros c [_ H]. simpl. apply Ascii.eqb_neq in H. rewrite H. exists "\", [c]. split; [reflexivity|discriminate].
  - intros a _ _. simpl. eexists _, _. split; [reflexivity|discriminate].
  - intros t IH [_ H]. destruct (IH H) as (c & l & E & N). rewrite expand_app, E. exists c, (l ++ ["+"]). auto.
  - intros t IH [_ H]. destruct (IH H) as (c & l & E & N). rewrite expand_app, E. exists c, (l ++ ["?"]). auto.
  - intros _ rest H. exact H.
  - intros q IHq t IHt [Hq Ht] rest H. rewrite expand_app, <- app_assoc. apply IHq; [exact Hq|].
    destruct (IHt Ht) as (c & l & E & N). rewrite E. exact N.
  - intros q IH H rest R. now apply IH.
  - intros a IHa q IHq [Ha Hq] rest H. rewrite expand_app, <- app_assoc. apply IHa; [exact Ha|]. simpl. discriminate.
Qed.

Definition lang_is (r : re) (P : list ascii -> Prop) : Prop := forall w, lang r w <-> P w.
Definition atom_parsed (t : term) : Prop := forall rest top stk, exists r,
  parse (expand_stars (term_text t) ++ rest) top stk = parse rest (push_atom top r) stk /\
  lang_is r (term_means t).
Definition followed (f f' : frame) (P : list ascii -> Prop) : Prop :=
  f_alts f' = f_alts f /\
  forall w, lang (close_seq f') w <-> exists u v, w = u ++ v /\ lang (close_seq f) u /\ P v.
Definition term_parsed (t : term) : Prop := forall rest top stk, exists f',
  parse (expand_stars (term_text t) ++ rest) top stk = parse rest f' stk /\ followed top f' (term_means t).
Definition seq_parsed (q : seq) : Prop := forall rest top stk, exists f',
  parse (expand_stars (seq_text q) ++ rest) top stk = parse rest f' stk /\ followed top f' (seq_means q).
Definition alts_parsed (a : alts) : Prop := forall rest stk, exists f',
  parse (expand_stars (alts_text a) ++ rest) empty_frame stk = parse rest f' stk /\
  lang_is (close_alt f') (alts_mean a).

Lemma atom_term t : atom_parsed t -> term_parsed t.
Proof.
  intros H rest top stk. destruct (H rest top stk) as (r & E & L). eexists. split; [exact E|].
  split; [reflexivity|]. intros w. rewrite close_seq_push. split; intros (u & v & A & B & C);
  exists u, v; (split; [exact A|]; split; [exact B|]); now apply L.
Qed.

Lemma star_concat r w : lang (Star r) w <-> exists ws, w = concat ws /\ Forall (lang r) ws.
Proof.
  split.
  - intros H. remember (Star r) as x. induction H; try discriminate.
    + exists []. auto.
    + injection Heqx as ->. destruct (IHlang2 eq_refl) as (ws & -> & F). exists (s :: ws). auto.
  - intros (ws & -> & F). induction F; simpl; constructor; assumption.
Qed.
Lemma lang_alt_iff a b w : lang (Alt a b) w <-> lang a w \/ lang b w.
Proof. split; [intros H; inversion H; auto|intros [H|H]; [now apply lang_altl|now apply lang_altr]]. Qed.
Lemma lang_eps_iff w : lang Eps w <-> w = [].
Proof. split; [intros H; now inversion H|intros ->; constructor]. Qed.

Lemma quantified t (c : ascii) g b (Q : list ascii -> Prop) :
  atom_parsed t ->
  (forall s f stk, parse (c :: s) f stk = match quantify f g b with
     | QFrame f => parse s f stk | QError => RError | QUnmodelled => RUnmodelled end) ->
  (forall r, lang_is r (term_means t) -> lang_is (g r) Q) ->
  forall rest top stk, exists f',
  parse ((expand_stars (term_text t) ++ [c]) ++ rest) top stk = parse rest f' stk /\ followed top f' Q.
Proof.
  intros A P G rest top stk. rewrite <- app_assoc. simpl app. destruct (A (c :: rest) top stk) as (r & E & L).
  rewrite E, P. unfold quantify, push_atom; simpl. eexists. split; [reflexivity|].
  split; [reflexivity|]. intros w. unfold close_seq at 1; simpl. rewrite lang_cat_iff.
  split; intros (u & v & X & Y & Z); exists u, v; (split; [exact X|]; split; [exact Y|]); now apply (G r L).
Qed.

Lemma parsed_all :
  (forall t, term_legal t -> term_parsed t /\ (atom t -> atom_parsed t)) /\
  (forall q, seq_legal q -> seq_parsed q) /\
  (forall a, alts_legal a -> alts_parsed a).
Proof.
  apply pattern_mut; cbn [term_legal seq_legal alts_legal].
  - intros c H. assert (atom_parsed (TChar c)) as A; [|split; [apply atom_term, A|auto]].
    intros rest top stk. exists (Chr c). split.
    + simpl. rewrite (plain_not_star c H). cbn [app]. now apply parse_plain.
    + intros w. split; [intros L; now inversion L|cbn; intros ->; constructor].
  - intros _. assert (atom_parsed TAny) as A; [|split; [apply atom_term, A|auto]].
    intros rest top stk. exists Dot. split; [reflexivity|]. intros w. cbn. split.
    + intros L. inversion L; subst. exists c. split; [reflexivity|]. apply no_newline_cons. split; [assumption|]. split; intros [].
    + intros (c & -> & N). apply no_newline_cons in N as [N _]. now constructor.
  - intros _. split; [|intros []]. intros rest top stk. eexists. split.
    + cbn [term_text expand_stars Ascii.eqb]. simpl. reflexivity.
    + split; [reflexivity|]. intros w. unfold close_seq at 1; simpl. rewrite lang_cat_iff.
      split; intros (u & v & X & Y & Z); exists u, v; (split; [exact X|]; split; [exact Y|]); now apply star_dot.
  - intros c [HA HS]. assert (atom_parsed (TQuote c)) as A; [|split; [apply atom_term, A|auto]].
    intros rest top stk. exists (Chr c). split.
    + apply Ascii.eqb_neq in HS. simpl. rewrite HS. cbn [app].
      destruct (is_alnum c) eqn:E; [apply alnum_spec in E; contradiction|reflexivity].
    + intros w. split; [intros L; now inversion L|cbn; intros ->; constructor].
  - intros a IH H. assert (atom_parsed (TGroup a)) as A; [|split; [apply atom_term, A|auto]].
    intros rest top stk. cbn [term_text].
    assert (E : expand_stars ("(" :: alts_text a ++ [")"]) ++ rest = "(" :: (expand_stars (alts_text a) ++ ")" :: rest)).
    { simpl. rewrite expand_app, <- app_assoc. reflexivity. }
    rewrite E. destruct (IH H (")" :: rest) (top :: stk)) as (f' & P & L).
    exists (close_alt f'). split; [|exact L].
    pose proof (proj2 (proj2 heads) a H (")" :: rest)) as N. cbn [head_ok] in N. specialize (N ltac:(discriminate)).
    cbn [parse]. simpl (Ascii.eqb "(" _). cbv iota.
    destruct (expand_stars (alts_text a) ++ ")" :: rest) as [|d l] eqn:X.
    + destruct (expand_stars (alts_text a)); discriminate.
    + cbn [head_ok] in N. apply Ascii.eqb_neq in N. rewrite N, P. reflexivity.
  - intros t IH [A H]. split; [|intros []]. specialize (proj2 (IH H) A) as B.
    unfold term_parsed. cbn [term_text]. intros rest top stk. rewrite expand_app.
    apply (quantified t "+" (fun a => Cat a (Star a)) false _ B); [reflexivity|].
    intros r L w. rewrite lang_cat_iff. cbn [term_means]. split.
    + intros (u & v & -> & U & V). apply star_concat in V as (ws & -> & F). exists (u :: ws).
      split; [discriminate|]. split; [reflexivity|]. constructor; [now apply L|].
      eapply Forall_impl; [|exact F]. intros x. apply L.
    + intros (ws & N & -> & F). destruct ws as [|u ws]; [congruence|]. inversion F; subst.
      exists u, (concat ws). split; [reflexivity|]. split; [now apply L|]. apply star_concat. exists ws.
      split; [reflexivity|]. eapply Forall_impl; [|eassumption]. intros x. apply L.
  - intros t IH [A H]. split; [|intros []]. specialize (proj2 (IH H) A) as B.
    unfold term_parsed. cbn [term_text]. intros rest top stk. rewrite expand_app.
    apply (quantified t "?" (fun a => Alt a Eps) true _ B); [reflexivity|].
    intros r L w. rewrite lang_alt_iff, lang_eps_iff, (L w). cbn [term_means]. tauto.
  - intros _ rest top stk. exists top. split; [reflexivity|]. split; [reflexivity|]. intros w. cbn. split.
    + intros H. exists w, []. rewrite app_nil_r. auto.
    + intros (u & v & -> & H & ->). now rewrite app_nil_r.
  - intros q IHq t IHt [Hq Ht] rest top stk. cbn [seq_text]. rewrite expand_app, <- app_assoc.
    destruct (IHq Hq (expand_stars (term_text t) ++ rest) top stk) as (f1 & E1 & A1 & L1).
    destruct (proj1 (IHt Ht) rest f1 stk) as (f2 & E2 & A2 & L2).
    exists f2. split; [congruence|]. split; [congruence|]. intros w. rewrite L2. cbn [seq_means]. split.
    + intros (u & v & -> & U & V). apply L1 in U as (x & y & -> & X & Y).
      exists x, (y ++ v). rewrite app_assoc. eauto 8.
    + intros (u & v & -> & U & (x & y & -> & X & Y)). exists (u ++ x), y. rewrite app_assoc.
      split; [reflexivity|]. split; [|exact Y]. apply L1. eauto.
  - intros q IH H rest stk. destruct (IH H rest empty_frame stk) as (f' & E & A & L).
    exists f'. split; [exact E|]. intros w. unfold close_alt. rewrite A. cbn [f_alts empty_frame]. rewrite L.
    cbn [alts_mean]. unfold close_seq; cbn [f_last f_seq empty_frame]. split.
    + intros (u & v & -> & U & V). apply lang_eps_iff in U. subst u. exact V.
    + intros V. exists [], w. split; [reflexivity|]. split; [constructor|exact V].
  - intros a IHa q IHq [Ha Hq] rest stk. cbn [alts_text]. rewrite expand_app, <- app_assoc.
    change (expand_stars ("|" :: seq_text q)) with ("|" :: expand_stars (seq_text q)). cbn [app].
    destruct (IHa Ha ("|" :: expand_stars (seq_text q) ++ rest) stk) as (f1 & E1 & L1).
    destruct (IHq Hq rest (bar f1) stk) as (f2 & E2 & A2 & L2).
    exists f2. split; [rewrite E1; exact E2|].
    intros w. unfold close_alt. rewrite A2. cbn [f_alts bar]. rewrite lang_alt_iff, (L1 w), L2.
    cbn [alts_mean]. unfold close_seq; cbn [f_last f_seq bar]. split.
    + intros [H|(u & v & -> & U & V)]; [auto|]. apply lang_eps_iff in U. subst u. auto.
    + intros [H|H]; [auto|right]. exists [], w. split; [reflexivity|]. split; [constructor|exact H].
Qed.

Lemma compile_pattern a : alts_legal a ->
  exists r, compile (pattern_text a) = ROk r /\ forall n, matches_name r n = true <-> stands_for a n.
Proof.
  intros H. destruct (proj2 (proj2 parsed_all) a H [] []) as (f & E & L). rewrite app_nil_r in E.
  exists (close_alt f). split.
  - unfold compile, pattern_text. rewrite list_ascii_of_string_of_list_ascii, E. reflexivity.
  - intros n. unfold matches_name. rewrite regex_match_lang. apply L.
Qed.

(** *** Rejected texts *)
Lemma compile_open a : alts_legal a -> compile (string_of_list_ascii ("(" :: alts_text a)) = RError.
Proof.
  intros H. unfold compile. rewrite list_ascii_of_string_of_list_ascii. simpl expand_stars.
  destruct (proj2 (proj2 parsed_all) a H [] [empty_frame]) as (f & E & _). rewrite app_nil_r in E.
  pose proof (proj2 (proj2 heads) a H [] I) as N. rewrite app_nil_r in N.
  cbn [parse]. simpl (Ascii.eqb "(" _). cbv iota. destruct (expand_stars (alts_text a)) as [|d l]; [reflexivity|].
  cbn [head_ok] in N. apply Ascii.eqb_neq in N. rewrite N, E. reflexivity.
Qed.
Lemma compile_close a rest : alts_legal a -> compile (string_of_list_ascii (alts_text a ++ ")" :: rest)) = RError.
Proof.
  intros H. unfold compile. rewrite list_ascii_of_string_of_list_ascii, expand_app.
  destruct (proj2 (proj2 parsed_all) a H (expand_stars (")" :: rest)) []) as (f & E & _). rewrite E. reflexivity.
Qed.
Lemma compile_nothing_to_repeat a rest (c : ascii) : alts_legal a -> c = "+" \/ c = "?" ->
  compile (string_of_list_ascii (alts_text a ++ "|" :: c :: rest)) = RError /\
  compile (string_of_list_ascii (c :: rest)) = RError.
Proof.
  intros H C. unfold compile. rewrite !list_ascii_of_string_of_list_ascii, expand_app.
  destruct (proj2 (proj2 parsed_all) a H (expand_stars ("|" :: c :: rest)) []) as (f & E & _). rewrite E.
  destruct C as [-> | ->]; split; reflexivity.
Qed.

(** *** Quoting *)
Definition quote_terms (w : list ascii) : seq :=
  fold_left (fun q c => SThen q (if in_dec Ascii.ascii_dec c
     ["^"; "$"; "\"; "."; "*"; "+"; "?"; "("; ")"; "["; "]"; "{"; "}"; "|"] then TQuote c else TChar c)) w SNil.
Lemma quote_spec w : ~ In "*" w -> forall q, seq_legal q ->
  let q' := fold_left (fun q c => SThen q (if in_dec Ascii.ascii_dec c
     ["^"; "$"; "\"; "."; "*"; "+"; "?"; "("; ")"; "["; "]"; "{"; "}"; "|"] then TQuote c else TChar c)) w q in
  seq_legal q' /\ seq_text q' = seq_text q ++ quoted w /\
  forall x, seq_means q' x <-> exists u, x = u ++ w /\ seq_means q u.
Proof.
  induction w as [|c w IH]; intros S q Q; cbn [fold_left quoted].
  - split; [exact Q|]. split; [now rewrite app_nil_r|]. intros x. split.
    + intros H. exists x. now rewrite app_nil_r.
    + intros (u & -> & H). now rewrite app_nil_r.
  - assert (S' : ~ In "*" w) by (intros K; apply S; right; exact K).
    assert (c <> "*") as Nc by (intros ->; apply S; left; reflexivity).
    set (t := if in_dec Ascii.ascii_dec c _ then TQuote c else TChar c).
    assert (T : term_legal t /\ term_text t ++ quoted w = quoted (c :: w) /\ forall v, term_means t v <-> v = [c]).
    { unfold t. cbn [quoted]. destruct (in_dec _ _ _) as [I|I].
      - split; [|split; [reflexivity|reflexivity]]. split; [|exact Nc].
        intros K. apply alnum_spec in K. cbn [In] in I.
        repeat (destruct I as [<-|I]; [discriminate K|]). exact I.
      - split; [exact I|]. split; reflexivity. }
    destruct T as (T1 & T2 & T3).
    destruct (IH S' (SThen q t) (conj Q T1)) as (A & B & C). cbv zeta in *. split; [exact A|]. split.
    + rewrite B. cbn [seq_text]. rewrite <- app_assoc, T2. reflexivity.
    + intros x. rewrite C. cbn [seq_means]. split.
      * intros (u & -> & u1 & v & -> & H1 & H2). apply T3 in H2. subst v. exists u1. rewrite <- app_assoc. auto.
      * intros (u & -> & H). exists (u ++ [c]). rewrite <- app_assoc. split; [reflexivity|].
        exists u, [c]. split; [reflexivity|]. split; [exact H|]. now apply T3.
Qed.
Lemma compile_quoted n : ~ In "*" (list_ascii_of_string n) ->
  exists r, compile (quoted_name n) = ROk r /\ forall m, matches_name r m = true <-> m = n.
Proof.
  intros S. destruct (quote_spec _ S SNil I) as (A & B & C). cbv zeta in *.
  set (q := fold_left _ _ _) in *. destruct (compile_pattern (AOne q) A) as (r & E & L).
  exists r. split.
  - unfold pattern_text in E. cbn [alts_text] in E. rewrite B in E. exact E.
  - intros m. rewrite L. unfold stands_for. cbn [alts_mean]. rewrite C. cbn [seq_means]. split.
    + intros (u & K & ->). apply list_ascii_inj. exact K.
    + intros ->. exists []. auto.
Qed.
