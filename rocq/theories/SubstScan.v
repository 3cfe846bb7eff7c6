(** The accessor grammar of a variable reference. *)
From Verif Require Import Base Chars ScannerModel ScannerSpec ScannerProofs SubstModel SubstSpec.
Local Open Scope list_scope.

Lemma remaining_new t : remaining (new_scanner t) = t. Proof. reflexivity. Qed.
Lemma remaining_save s : remaining (save_pos s) = remaining s. Proof. reflexivity. Qed.
Lemma remaining_poppos s : remaining (pop_pos s) = remaining s. Proof. reflexivity. Qed.
Lemma take_while_fst p s : fst (take_while p s) = fst (span p (remaining s)). Proof. reflexivity. Qed.
Lemma skipn_prefix {A} (a b : list A) : skipn (length a) (a ++ b) = b.
Proof. induction a; cbn; auto. Qed.
Lemma take_while_rem p s : remaining (snd (take_while p s)) = snd (span p (remaining s)).
Proof.
  unfold take_while, remaining. cbn. rewrite <- skipn_add.
  rewrite <- (span_app p (skipn (sc_pos s) (sc_chars s))) at 2. apply skipn_prefix.
Qed.
Lemma take_hit c s r : remaining s = c :: r -> exists s', take c s = (true, s') /\ remaining s' = r.
Proof.
  intros H. pose proof (take_reads c s) as T. rewrite H, N.eqb_refl in T. destruct (take c s) as [b s']. cbn in T.
  destruct T as [-> T]. eauto.
Qed.
Lemma take_miss c s : hd_error (remaining s) <> Some c -> take c s = (false, s).
Proof.
  intros H. pose proof (take_reads c s) as T. destruct (remaining s) as [|d r].
  - destruct (take c s). cbn in T. now destruct T as [-> ->].
  - destruct (N.eqb_spec c d) as [->|Hne]; [now elim H|]. destruct (take c s). cbn in T. now destruct T as [-> ->].
Qed.
Lemma take_true c s s' : take c s = (true, s') -> remaining s = c :: remaining s'.
Proof.
  intros H. pose proof (take_reads c s) as T. rewrite H in T. cbn in T. destruct (remaining s) as [|d r]; [now destruct T|].
  destruct (N.eqb_spec c d) as [->|Hne]; [|now destruct T]. now destruct T as [_ ->].
Qed.
Lemma take_false c s s' : take c s = (false, s') -> s' = s /\ hd_error (remaining s) <> Some c.
Proof.
  intros H. pose proof (take_reads c s) as T. rewrite H in T. cbn in T. destruct (remaining s) as [|d r].
  - split; [tauto|discriminate].
  - destruct (N.eqb_spec c d) as [->|Hne]; [now destruct T|]. split; [tauto|]. cbn. congruence.
Qed.

Section WithClasses.
Variable k : classes.
Hypothesis Hk : sane k.

Lemma keyword_hit s r : remaining s = kw_variables ++ r ->
  exists s', variables_keyword s = (inl tt, s') /\ remaining s' = r.
Proof.
  intros H. unfold variables_keyword, scan. change (skipn (sc_pos (save_pos s)) (sc_chars (save_pos s))) with (remaining s). rewrite H.
  eexists. split; [reflexivity|].
  unfold remaining in *. unfold pop_pos, at_pos, save_pos. cbn [sc_pos sc_chars].
  match goal with |- skipn ?n _ = _ => replace n with (sc_pos s + length kw_variables) by (unfold kw_variables; cbn [length chars map list_ascii_of_string]; lia) end.
  rewrite <- skipn_add. exact (eq_trans (f_equal (skipn (length kw_variables)) H) (skipn_prefix kw_variables r)).
Qed.
Lemma keyword_sound s u s' : variables_keyword s = (inl u, s') -> remaining s = kw_variables ++ remaining s'.
Proof.
  unfold variables_keyword. pose proof (scan_match variables_cb (save_pos s) tt) as M.
  destruct (scan variables_cb (save_pos s)) as [[[[]|]|[p|]] s1]; intros H; inversion H; subst.
  destruct (M eq_refl) as (w & E & S). cbn [fst snd] in E. change (remaining (save_pos s)) with (remaining s) in E.
  rewrite E. rewrite remaining_poppos. f_equal. unfold says, variables_cb in S.
  destruct (text_eqb w kw_variables) eqn:T; [now apply text_eqb_eq in T|].
  destruct (match w with [] => false | _ => starts_with w kw_variables end); destruct S; discriminate.
Qed.

Lemma ident_start_iff c : ident_start k c = true <-> alphabetic k c = true \/ c = 95%N.
Proof. unfold ident_start, c_under. now rewrite orb_true_iff, N.eqb_eq. Qed.
Lemma ident_char_iff c : ident_char k c = true <-> alphanumeric k c = true \/ c = 95%N \/ c = 45%N.
Proof. unfold ident_char, c_under, c_minus. rewrite !orb_true_iff, !N.eqb_eq. tauto. Qed.
Lemma literal_char_iff c : literal_char k c = true <-> alphanumeric k c = true \/ c = 95%N \/ c = 45%N \/ c = 46%N.
Proof. unfold literal_char, c_dot. rewrite orb_true_iff, N.eqb_eq, ident_char_iff. tauto. Qed.
Lemma dot_name_iff n : dot_name k n <-> exists c t, n = c :: t /\ ident_start k c = true /\ forallb (ident_char k) t = true.
Proof.
  unfold dot_name. split; intros (c & t & E & H1 & H2); exists c, t; (split; [exact E|]); rewrite ident_start_iff in *; (split; [exact H1|]).
  - apply forallb_forall. intros d Hd. apply ident_char_iff, H2, Hd.
  - intros d Hd. rewrite forallb_forall in H2. apply ident_char_iff, H2, Hd.
Qed.
Lemma quoted_name_iff n : quoted_name k n <-> forallb (literal_char k) n = true.
Proof.
  unfold quoted_name. rewrite forallb_forall. split; intros H d Hd; apply literal_char_iff, H, Hd.
Qed.

Lemma identifier_hit s n r : remaining s = n ++ r -> dot_name k n ->
  match r with [] => True | c :: _ => ident_char k c = false end ->
  exists s', identifier k s = (inl n, s') /\ remaining s' = r.
Proof.
  intros E Hn Hr. apply dot_name_iff in Hn. destruct Hn as (c & t & -> & Hc & Ht). unfold identifier.
  rewrite peek_remaining, E. cbn [hd_error app]. rewrite Hc. cbv iota zeta. pose proof (pop_reads s) as P. rewrite E in P. cbn in P.
  destruct (take_while (ident_char k) (snd (pop s))) as [t' s'] eqn:T. exists s'.
  pose proof (take_while_fst (ident_char k) (snd (pop s))) as F. pose proof (take_while_rem (ident_char k) (snd (pop s))) as R.
  rewrite T in F, R. cbn in F, R. rewrite (proj2 P), (span_exact _ t r Ht Hr) in F, R. cbn in F, R. subst t'. split; [reflexivity|exact R].
Qed.
Lemma identifier_sound s n s' : identifier k s = (inl n, s') -> dot_name k n /\ remaining s = n ++ remaining s'.
Proof.
  unfold identifier. rewrite peek_remaining. pose proof (pop_reads s) as P. destruct (remaining s) as [|c r] eqn:E; cbn [hd_error]; [discriminate|].
  destruct (ident_start k c) eqn:Hc; [|discriminate]. destruct (take_while (ident_char k) (snd (pop s))) as [t s2] eqn:T.
  pose proof (take_while_fst (ident_char k) (snd (pop s))) as F. pose proof (take_while_rem (ident_char k) (snd (pop s))) as R.
  rewrite T in F, R. cbn in F, R. rewrite (proj2 P) in F, R. intros H. inversion H; subst. split.
  - apply dot_name_iff. exists c, (fst (span (ident_char k) r)). split; [reflexivity|]. split; [exact Hc|apply span_all].
  - rewrite R. cbn. now rewrite span_app.
Qed.
Lemma ascii_not_literal c : (c < 128)%N -> (is_letter c || is_digit c || (c =? 95)%N || (c =? 45)%N || (c =? 46)%N) = false -> literal_char k c = false.
Proof.
  intros H E. destruct Hk as (_ & A & _). unfold literal_char, ident_char, c_under, c_minus, c_dot. rewrite (A c H). exact E.
Qed.
Lemma bracket_hit s n r : remaining s = [c_lbrack; c_quote] ++ n ++ [c_quote; c_rbrack] ++ r -> quoted_name k n ->
  exists s', string_literal_identifier k s = (inl n, s') /\ remaining s' = r.
Proof.
  intros E Hn. apply quoted_name_iff in Hn. unfold string_literal_identifier. cbn in E.
  destruct (take_hit _ _ _ E) as (s1 & -> & E1). destruct (take_hit _ _ _ E1) as (s2 & -> & E2).
  destruct (take_while (literal_char k) s2) as [t s3] eqn:T.
  pose proof (take_while_fst (literal_char k) s2) as F. pose proof (take_while_rem (literal_char k) s2) as R.
  rewrite T in F, R. cbn in F, R. rewrite E2, (span_exact _ n) in F, R; try exact Hn; try (cbn; apply ascii_not_literal; reflexivity).
  cbn in F, R. subst t. destruct (take_hit _ _ _ R) as (s4 & -> & E4). destruct (take_hit _ _ _ E4) as (s5 & -> & E5). eauto.
Qed.
Lemma bracket_sound s n s' : string_literal_identifier k s = (inl n, s') ->
  quoted_name k n /\ remaining s = [c_lbrack; c_quote] ++ n ++ [c_quote; c_rbrack] ++ remaining s'.
Proof.
  unfold string_literal_identifier. destruct (take c_lbrack s) as [[] s1] eqn:E1; [|discriminate].
  destruct (take c_quote s1) as [[] s2] eqn:E2; [|discriminate].
  destruct (take_while (literal_char k) s2) as [t s3] eqn:T.
  pose proof (take_while_fst (literal_char k) s2) as F. pose proof (take_while_rem (literal_char k) s2) as R.
  rewrite T in F, R. cbn in F, R.
  destruct (take c_quote s3) as [[] s4] eqn:E4; [|discriminate].
  destruct (take c_rbrack s4) as [[] s5] eqn:E5; [|discriminate]. intros H. inversion H; subst. split.
  - apply quoted_name_iff, span_all.
  - apply take_true in E1, E2, E4, E5. rewrite E1, E2. cbn. do 2 f_equal.
    rewrite <- (span_app (literal_char k) (remaining s2)) at 1. f_equal. rewrite <- R, E4, E5. reflexivity.
Qed.

Lemma not_blank t : starts_with kw_variables t = true -> remaining (consume_whitespace k (new_scanner t)) = t.
Proof.
  intros H. apply starts_with_spec in H. destruct H as (r & ->). unfold consume_whitespace. rewrite take_while_rem, remaining_new.
  cbn. destruct Hk as (_ & _ & W). rewrite W; [|reflexivity]. reflexivity.
Qed.

Lemma parse_dot n r : dot_name k n -> match r with [] => True | c :: _ => ident_char k c = false end ->
  parse_substitution k (kw_variables ++ [c_dot] ++ n ++ r) = inl n.
Proof.
  intros Hn Hr. unfold parse_substitution. set (t := kw_variables ++ [c_dot] ++ n ++ r).
  assert (E : remaining (consume_whitespace k (new_scanner t)) = t) by (apply not_blank; reflexivity).
  destruct (keyword_hit _ _ E) as (s1 & -> & E1). unfold variable_name_accessor. cbn in E1.
  change (remaining s1) with (remaining (save_pos s1)) in E1. destruct (take_hit _ _ _ E1) as (s2 & -> & E2).
  destruct (identifier_hit s2 n r E2 Hn Hr) as (s3 & -> & _). reflexivity.
Qed.
Lemma parse_bracket n r : quoted_name k n ->
  parse_substitution k (kw_variables ++ [c_lbrack; c_quote] ++ n ++ [c_quote; c_rbrack] ++ r) = inl n.
Proof.
  intros Hn. unfold parse_substitution. set (t := kw_variables ++ _).
  assert (E : remaining (consume_whitespace k (new_scanner t)) = t) by (apply not_blank; reflexivity).
  destruct (keyword_hit _ _ E) as (s1 & -> & E1). unfold variable_name_accessor.
  change (remaining s1) with (remaining (save_pos s1)) in E1. rewrite take_miss by (rewrite E1; discriminate).
  rewrite peek_remaining, E1. cbn [hd_error app]. change ((c_lbrack =? c_lbrack)%N) with true. cbv iota.
  destruct (bracket_hit (save_pos s1) n r E1 Hn) as (s3 & -> & _). reflexivity.
Qed.
Lemma parse_sound t n : starts_with kw_variables t = true -> parse_substitution k t = inl n ->
  (dot_name k n /\ exists r, t = kw_variables ++ [c_dot] ++ n ++ r) \/
  (quoted_name k n /\ exists r, t = kw_variables ++ [c_lbrack; c_quote] ++ n ++ [c_quote; c_rbrack] ++ r).
Proof.
  intros Hs. unfold parse_substitution. pose proof (not_blank t Hs) as E.
  destruct (variables_keyword (consume_whitespace k (new_scanner t))) as [[u|e] s1] eqn:K; [|discriminate].
  apply keyword_sound in K. rewrite E in K. rewrite K. unfold variable_name_accessor.
  destruct (take c_dot (save_pos s1)) as [[] s2] eqn:T.
  - apply take_true in T. rewrite remaining_save in T. rewrite T.
    destruct (identifier k s2) as [[m|e] s3] eqn:I; intros H; inversion H; subst. apply identifier_sound in I. destruct I as [I1 I2].
    left. split; [exact I1|]. exists (remaining s3). now rewrite I2.
  - apply take_false in T. destruct T as [-> _]. destruct (peek (save_pos s1)) as [c|] eqn:P; [|discriminate].
    destruct (c =? c_lbrack)%N; [|discriminate].
    destruct (string_literal_identifier k (save_pos s1)) as [[m|e] s3] eqn:I; intros H; inversion H; subst. apply bracket_sound in I. destruct I as [I1 I2].
    right. split; [exact I1|]. exists (remaining s3). rewrite remaining_save in I2. now rewrite I2.
Qed.
End WithClasses.
