(** The parser reads what is written in the documented syntax. *)
From Verif Require Import Base Chars ScannerModel ScannerSpec ScannerProofs SubstScan ResolveModel ResolveSpec ResolveProofs TemplateParserModel TemplateParserSpec.
Local Open Scope list_scope.

(** Moving on by [n] characters *)
Definition adv (s : scanner) (n : nat) : scanner := at_pos s (sc_pos s + n).
Lemma adv_0 s : adv s 0 = s.
Proof. destruct s. unfold adv, at_pos. cbn. now rewrite Nat.add_0_r. Qed.
Lemma adv_adv s n m : adv (adv s n) m = adv s (n + m).
Proof. unfold adv, at_pos. cbn. now rewrite Nat.add_assoc. Qed.
Lemma rest_adv s n : rest_of (adv s n) = skipn n (rest_of s).
Proof. unfold rest_of, adv, at_pos. cbn. now rewrite skipn_add. Qed.
Lemma rest_app s a b : rest_of s = a ++ b -> rest_of (adv s (length a)) = b.
Proof. intros H. rewrite rest_adv, H. apply skipn_prefix. Qed.
Lemma rest_save s : rest_of (save_pos s) = rest_of s. Proof. reflexivity. Qed.
Lemma save_back s n : backtrack (adv (save_pos s) n) = s.
Proof. destruct s. reflexivity. Qed.
Lemma save_pop s n : pop_pos (adv (save_pos s) n) = adv s n. Proof. reflexivity. Qed.
Lemma peek_rest s : peek s = hd_error (rest_of s).
Proof. exact (peek_remaining s). Qed.
Lemma pop_adv s c r : rest_of s = c :: r -> snd (pop s) = adv s 1.
Proof. intros H. pose proof (peek_rest s) as E. rewrite H in E. cbn in E. unfold peek in E. unfold pop. now rewrite E. Qed.
Lemma take_adv s c r : rest_of s = c :: r -> take c s = (true, adv s 1).
Proof. intros H. pose proof (peek_rest s) as E. rewrite H in E. cbn in E. unfold peek in E. unfold take. now rewrite E, N.eqb_refl. Qed.
Lemma take_no s c : hd_error (rest_of s) <> Some c -> take c s = (false, s).
Proof. exact (take_miss c s). Qed.
Lemma while_adv p s a b : rest_of s = a ++ b -> forallb p a = true -> match b with [] => True | c :: _ => p c = false end ->
  take_while p s = (a, adv s (length a)).
Proof. intros H Ha Hb. unfold take_while. change (skipn (sc_pos s) (sc_chars s)) with (rest_of s). rewrite H, (span_exact p a b Ha Hb). reflexivity. Qed.

Section Params.
Variable k : classes.
Variable P : Type.
Variable parse_path : text -> option P.
Variable F : Type.
Variable parse_float : text -> option F.
Hypothesis Hk : proper k.
Hypothesis Hp : path_parser k P parse_path.
Notation func_call := (func_call k P parse_path F parse_float).
Notation func_args := (func_args k P parse_path F parse_float).
Notation args_loop := (args_loop k P parse_path F parse_float).
Notation func_arg := (func_arg k P parse_path F parse_float).
Notation json_path_expr := (json_path_expr P parse_path F).
Notation float_literal := (float_literal P F parse_float).
Notation int_literal := (int_literal P F).
Notation string_literal := (string_literal P F).
Notation bool_literal := (bool_literal P F).
Notation null_literal := (null_literal P F).
Notation skip_blanks := (skip_blanks k).
Notation blanks := (blanks k).

(** Not a call and not a path: the literals are tried. *)
Definition others (s2 : scanner) : (expr P F + terr) * scanner :=
  match bool_literal s2 with
  | (inl e, s3) => (inl e, s3)
  | (inr _, s3) =>
      match null_literal s3 with
      | (inl e, s4) => (inl e, s4)
      | (inr _, s4) =>
          match float_literal s4 with
          | (inl e, s5) => (inl e, s5)
          | (inr _, s5) =>
              match int_literal s5 with
              | (inl e, s6) => (inl e, s6)
              | (inr _, s6) => string_literal s6
              end
          end
      end
  end.
Lemma func_call_S n s0 : func_call (S n) s0 =
  match func_name k (save_pos s0) with
  | (inr e, s1) => (inr e, backtrack s1)
  | (inl name, s1) => match func_args n s1 with
                      | (inl args, s2) => (inl (Call name args), pop_pos s2)
                      | (inr e, s2) => (inr e, backtrack s2)
                      end
  end.
Proof. reflexivity. Qed.
Lemma func_args_S n s0 : func_args (S n) s0 =
  match take c_lparen (skip_blanks s0) with (false, s1) => (inr TChar, s1) | (true, s1) => args_loop n s1 end.
Proof. reflexivity. Qed.
Lemma args_loop_S n s : args_loop (S n) s =
  match peek s with
  | None => (inl [], s)
  | Some c =>
      if whitespace k c then args_loop n (snd (pop s))
      else if (c =? c_rparen)%N then (inl [], snd (pop s))
      else match func_arg n s with
           | (inr e, s1) => (inr e, s1)
           | (inl a, s1) =>
               match take c_comma (skip_blanks s1) with
               | (true, s2) => map_fst (cons a) (args_loop n s2)
               | (false, s2) => match peek s2 with
                                | Some d => if negb (d =? c_rparen)%N then (inr TChar, s2) else map_fst (cons a) (args_loop n s2)
                                | None => map_fst (cons a) (args_loop n s2)
                                end
               end
           end
  end.
Proof. reflexivity. Qed.
Lemma func_arg_S n s0 : func_arg (S n) s0 =
  match func_call n s0 with
  | (inl c, s1) => (inl (ECall c), s1)
  | (inr TFuel, s1) => (inr TFuel, s1)
  | (inr _, s1) =>
      match json_path_expr s1 with
      | (inl e, s2) => (inl e, s2)
      | (inr TPath, s2) => if match peek s2 with Some c => (c =? c_dollar)%N | None => false end then (inr TPath, s2) else others s2
      | (inr _, s2) => others s2
      end
  end.
Proof. reflexivity. Qed.
(** What may stand after an argument, blanks aside *)
Definition closing (r : text) : Prop := match r with [] => True | c :: _ => c = c_comma \/ c = c_rparen end.
Definition no_blank (r : text) : Prop := match r with [] => True | c :: _ => whitespace k c = false end.

Lemma ws_ascii c : (c < 128)%N -> whitespace k c = is_blank c. Proof. apply Hk. Qed.
Lemma al_ascii c : (c < 128)%N -> alphabetic k c = is_letter c. Proof. apply Hk. Qed.
Lemma ws_not c : (c < 128)%N -> is_blank c = false -> forall t, In c t -> blanks t -> False.
Proof. intros H1 H2 t Hin Hb. specialize (Hb c Hin). rewrite ws_ascii, H2 in Hb by assumption. discriminate. Qed.
Lemma closing_no_blank r : closing r -> no_blank r.
Proof. destruct r as [|c r]; [easy|]. cbn. intros [-> | ->]; now rewrite ws_ascii. Qed.
Lemma blanks_forallb b : blanks b -> forallb (whitespace k) b = true.
Proof. intros H. apply forallb_forall. exact H. Qed.
Lemma skip_adv s b r : rest_of s = b ++ r -> blanks b -> no_blank r -> skip_blanks s = adv s (length b).
Proof. intros H Hb Hr. unfold TemplateParserModel.skip_blanks. now rewrite (while_adv _ s b r H (blanks_forallb b Hb) Hr). Qed.

Lemma name_start_iff c : name_start k c = true <-> alphabetic k c = true \/ c = 95%N.
Proof. unfold name_start, c_underscore. now rewrite orb_true_iff, N.eqb_eq. Qed.
Lemma name_char_iff c : name_char k c = true <-> alphabetic k c = true \/ (48 <= c <= 57)%N \/ c = 95%N.
Proof. unfold name_char, c_underscore, is_digit. rewrite !orb_true_iff, N.eqb_eq, andb_true_iff, !N.leb_le. tauto. Qed.
Lemma name_not_blank c : whitespace k c = true -> name_char k c = false.
Proof.
  intros H. destruct (name_char k c) eqn:E; [|reflexivity]. apply name_char_iff in E. destruct E as [E|[E|E]].
  - rewrite (proj2 Hk c H) in E. discriminate.
  - rewrite ws_ascii in H by lia. unfold is_blank in H. rewrite orb_true_iff, N.eqb_eq, andb_true_iff, !N.leb_le in H. lia.
  - subst. rewrite ws_ascii in H by lia. discriminate.
Qed.
Lemma name_adv s b n r : rest_of s = b ++ n ++ r -> blanks b -> func_name_text k n -> match r with [] => True | c :: _ => name_char k c = false end ->
  func_name k s = (inl n, adv s (length b + length n)).
Proof.
  intros H Hb (c & t & -> & H1 & H2) Hr. unfold func_name.
  assert (Hc : name_start k c = true) by now apply name_start_iff.
  assert (Hw : whitespace k c = false). { destruct (whitespace k c) eqn:E; [|reflexivity]. apply name_not_blank in E. unfold name_start, name_char in *. destruct (alphabetic k c), (c =? c_underscore)%N, (is_digit c); discriminate. }
  rewrite (skip_adv s b ((c :: t) ++ r) H Hb Hw). pose proof (rest_app s b _ H) as H'.
  rewrite peek_rest, H'. cbn [hd_error app]. rewrite Hc. rewrite (pop_adv _ c (t ++ r) H'). 
  assert (H'' : rest_of (adv (adv s (length b)) 1) = t ++ r) by (apply (rest_app _ [c]); exact H').
  rewrite (while_adv _ _ t r H''); [|apply forallb_forall; intros d Hd; apply name_char_iff, H2, Hd|exact Hr]. rewrite !adv_adv. cbn [length]. reflexivity.
Qed.
Lemma name_fail s c r : rest_of s = c :: r -> whitespace k c = false -> name_start k c = false -> func_name k s = (inr TChar, s).
Proof.
  intros H Hw Hn. unfold func_name. rewrite (skip_adv s [] (c :: r) H); [|intros x []|exact Hw]. cbn [length]. rewrite adv_0, peek_rest, H. cbn [hd_error]. now rewrite Hn.
Qed.

(** ** No call here *)
Lemma call_fail_start fuel s c r : 1 <= fuel -> rest_of s = c :: r -> whitespace k c = false -> name_start k c = false -> func_call fuel s = (inr TChar, s).
Proof.
  intros Hf H Hw Hn. destruct fuel as [|n]; [lia|]. rewrite func_call_S.
  rewrite (name_fail (save_pos s) c r H Hw Hn). rewrite <- (adv_0 (save_pos s)) at 1. now rewrite save_back.
Qed.
Lemma call_fail_paren fuel s n b r : 2 <= fuel -> rest_of s = n ++ b ++ r -> func_name_text k n -> blanks b -> closing r -> func_call fuel s = (inr TChar, s).
Proof.
  intros Hf H Hn Hb Hr. destruct fuel as [|[|f]]; try lia. rewrite func_call_S.
  assert (Hstop : match b ++ r with [] => True | c :: _ => name_char k c = false end).
  { destruct b as [|x b]; cbn.
    - destruct r as [|c r]; [exact I|]. cbn in Hr. destruct (name_char k c) eqn:E; [|reflexivity]. apply name_char_iff in E. destruct Hr as [-> | ->]; destruct E as [E|[E|E]]; try discriminate; try (rewrite al_ascii in E by (vm_compute; reflexivity); discriminate); unfold c_comma, c_rparen in *; lia.
    - apply name_not_blank. apply Hb. now left. }
  rewrite (name_adv (save_pos s) [] n (b ++ r)); [|exact H|intros x []|exact Hn|exact Hstop].
  cbn [length Nat.add]. rewrite func_args_S.
  assert (H2 : rest_of (adv (save_pos s) (length n)) = b ++ r) by (apply rest_app; exact H).
  rewrite (skip_adv _ b r H2 Hb (closing_no_blank r Hr)).
  pose proof (rest_app _ b r H2) as H3. rewrite take_no.
  - rewrite adv_adv. now rewrite save_back.
  - rewrite H3. destruct r as [|c r]; [discriminate|]. cbn. cbn in Hr. destruct Hr as [-> | ->]; discriminate.
Qed.

(** ** JSON paths *)
Lemma path_span_quoted q b r : quoted_text q -> path_span false b (q ++ r) = q ++ path_span false b r.
Proof.
  intros (w & -> & Hw). cbn [app path_span]. change (39 =? c_apos)%N with true. cbn [negb]. f_equal.
  rewrite <- app_assoc. cbn [app]. induction w as [|c w IH]; cbn [app path_span].
  - change (39 =? c_apos)%N with true. reflexivity.
  - destruct (Hw c (or_introl eq_refl)) as (H1 & H2 & H3).
    rewrite (proj2 (N.eqb_neq c c_apos) H1), (proj2 (N.eqb_neq c c_lbrk) H2), (proj2 (N.eqb_neq c c_rbrk) H3). rewrite andb_false_r. cbn [andb]. f_equal. apply IH. intros d Hd. apply Hw. now right.
Qed.
Lemma path_span_brackets u r : in_brackets u -> path_span false true (u ++ r) = u ++ path_span false true r.
Proof.
  induction 1 as [|c t H1 H2 _ IH|q t Hq _ IH].
  - reflexivity.
  - cbn [app path_span]. rewrite (proj2 (N.eqb_neq c c_apos) H1), (proj2 (N.eqb_neq c c_rbrk) H2). destruct (c =? c_lbrk)%N; [now rewrite IH|]. rewrite andb_false_r. now rewrite IH.
  - rewrite <- app_assoc. rewrite path_span_quoted by exact Hq. rewrite IH. now rewrite app_assoc.
Qed.
Lemma path_span_body u r : path_body u -> path_span false false (u ++ r) = u ++ path_span false false r.
Proof.
  induction 1 as [|c t H1 _ IH|q t Hq _ IH|b t Hb _ IH].
  - reflexivity.
  - cbn [app path_span]. cbn [In chars map list_ascii_of_string] in H1.
    assert (E : forall d, In d [44; 41; 91; 93; 39]%N -> (c =? d)%N = false). { intros d Hd. apply N.eqb_neq. intros ->. apply H1. exact Hd. }
    unfold c_apos, c_lbrk, c_rbrk, c_comma, c_rparen. rewrite !E by (cbn; tauto). cbn [orb andb]. now rewrite IH.
  - rewrite <- app_assoc. rewrite path_span_quoted by exact Hq. rewrite IH. now rewrite app_assoc.
  - cbn [app path_span]. change (91 =? c_apos)%N with false. change (91 =? c_lbrk)%N with true. cbn iota. f_equal.
    rewrite <- app_assoc, path_span_brackets by exact Hb. cbn [app path_span]. change (93 =? c_apos)%N with false. change (93 =? c_lbrk)%N with false. change (93 =? c_rbrk)%N with true. cbn iota. rewrite IH. rewrite <- app_assoc. reflexivity.
Qed.
Lemma path_span_blanks b r : blanks b -> path_span false false (b ++ r) = b ++ path_span false false r.
Proof.
  intros Hb. induction b as [|c b IH]; [reflexivity|]. cbn [app path_span].
  assert (E : forall d, (d < 128)%N -> is_blank d = false -> (c =? d)%N = false). { intros d H1 H2. apply N.eqb_neq. intros ->. apply (ws_not d H1 H2 (d :: b) (or_introl eq_refl) Hb). }
  unfold c_apos, c_lbrk, c_rbrk, c_comma, c_rparen. rewrite !E by reflexivity. cbn [orb andb]. rewrite IH; [reflexivity|]. intros d Hd. apply Hb. now right.
Qed.
Lemma path_span_closing r : closing r -> path_span false false r = [].
Proof. destruct r as [|c r]; [reflexivity|]. intros [-> | ->]; reflexivity. Qed.
Lemma path_span_dollar u r : path_span false false (chars "$" ++ u ++ r) = chars "$" ++ path_span false false (u ++ r).
Proof. reflexivity. Qed.
Lemma path_hit s t b r p : rest_of s = t ++ b ++ r -> path_text t -> parse_path t = Some p -> blanks b -> closing r ->
  json_path_expr s = (inl (EPath p), adv s (length t + length b)).
Proof.
  intros H (u & -> & Hu) Hpp Hb Hr. unfold TemplateParserModel.json_path_expr. rewrite rest_save, H.
  rewrite <- app_assoc, path_span_dollar, path_span_body, path_span_blanks, path_span_closing by assumption. rewrite app_nil_r.
  rewrite app_assoc. rewrite (proj2 Hp) by exact Hb. rewrite Hpp. rewrite app_length. apply (f_equal (pair _)), save_pop.
Qed.
(** A path whose text is cut short is not read as something else. *)
Lemma path_cut s u r : rest_of s = chars "$" ++ u ++ r -> path_body u -> closing r -> parse_path (chars "$" ++ u) = None ->
  json_path_expr s = (inr TPath, s).
Proof.
  intros H Hu Hr Hpp. unfold TemplateParserModel.json_path_expr. rewrite rest_save, H.
  rewrite path_span_dollar, path_span_body, path_span_closing by assumption. rewrite app_nil_r, Hpp. apply (f_equal (pair _)), save_back.
Qed.
Definition starts_other (c : N) : Prop := is_letter c = true \/ is_digit c = true \/ In c (chars "-") \/ c = 34%N.
Lemma path_miss s c r : rest_of s = c :: r -> starts_other c -> json_path_expr s = (inr TPath, s).
Proof.
  intros H Hc. unfold TemplateParserModel.json_path_expr. rewrite rest_save, H. 
  assert (E : exists t, path_span false false (c :: r) = c :: t).
  { cbn [path_span].
    assert (Hn : forall d, In d [39; 91; 93; 44; 41]%N -> (c =? d)%N = false).
    { intros d Hd. apply N.eqb_neq. intros ->. destruct Hc as [Hc|[Hc|[Hc|Hc]]].
      - repeat (destruct Hd as [<-|Hd]; [discriminate|]). destruct Hd.
      - repeat (destruct Hd as [<-|Hd]; [discriminate|]). destruct Hd.
      - destruct Hc as [<-|[]]. repeat (destruct Hd as [Hd|Hd]; [discriminate|]). destruct Hd.
      - subst. repeat (destruct Hd as [Hd|Hd]; [discriminate|]). destruct Hd. }
    unfold c_apos, c_lbrk, c_rbrk, c_comma, c_rparen. rewrite !Hn by (cbn; tauto). cbn [orb andb]. eauto. }
  destruct E as [t E]. rewrite E, (proj1 Hp c t Hc). apply (f_equal (pair _)), save_back.
Qed.

(** ** Literals *)
Lemma literal_none cb s : match rest_of s with [] => True | c :: _ => cb [c] = None end -> literal P F cb s = (inr TChar, s).
Proof.
  intros H. unfold literal, scan. change (skipn (sc_pos (save_pos s)) (sc_chars (save_pos s))) with (rest_of s).
  assert (E : scan_loop cb [] false None (sc_pos (save_pos s)) (rest_of s) = (inl None, sc_pos (save_pos s))).
  { destruct (rest_of s) as [|c r]; [reflexivity|]. cbn [scan_loop app]. now rewrite H. }
  rewrite E. apply (f_equal (pair _)). destruct s; reflexivity.
Qed.
Lemma bool_miss s c r : rest_of s = c :: r -> c <> 116%N -> c <> 102%N -> bool_literal s = (inr TChar, s).
Proof.
  intros H H1 H2. apply literal_none. rewrite H. unfold bool_cb.
  assert (E : forall w, w <> [c] -> text_eqb [c] w = false). { intros w Hw. destruct (text_eqb [c] w) eqn:E; [apply text_eqb_eq in E; congruence|reflexivity]. }
  rewrite !E; [reflexivity| | | | | | | | |]; cbn; congruence.
Qed.
Lemma null_miss s c r : rest_of s = c :: r -> c <> 110%N -> null_literal s = (inr TChar, s).
Proof.
  intros H H1. apply literal_none. rewrite H. unfold null_cb.
  assert (E : forall w, w <> [c] -> text_eqb [c] w = false). { intros w Hw. destruct (text_eqb [c] w) eqn:E; [apply text_eqb_eq in E; congruence|reflexivity]. }
  rewrite !E; [reflexivity| | | |]; cbn; congruence.
Qed.
Lemma adv_end s p : sc_pos s + p = sc_pos s + p -> pop_pos (at_pos (save_pos s) (sc_pos s + p)) = adv s p.
Proof. reflexivity. Qed.
Lemma true_hit s r : rest_of s = chars "true" ++ r -> bool_literal s = (inl (EBool true), adv s 4).
Proof.
  intros H. unfold TemplateParserModel.bool_literal, literal, scan. change (skipn (sc_pos (save_pos s)) (sc_chars (save_pos s))) with (rest_of s). rewrite H.
  cbn [chars map list_ascii_of_string app scan_loop]. change (chr "t") with 116%N. change (chr "r") with 114%N. change (chr "u") with 117%N. change (chr "e") with 101%N.
  change (bool_cb P F [116%N]) with (Some (@Require (expr P F))). cbn iota. change (bool_cb P F [116; 114]%N) with (Some (@Require (expr P F))). cbn iota. change (bool_cb P F [116; 114; 117]%N) with (Some (@Require (expr P F))). cbn iota.
  change (bool_cb P F [116; 114; 117; 101]%N) with (Some (Return (@EBool P F true))). cbn iota. apply (f_equal (pair _)). unfold adv, at_pos, pop_pos, save_pos. cbn [sc_pos sc_chars sc_stack tl]. f_equal. lia.
Qed.
Lemma false_hit s r : rest_of s = chars "false" ++ r -> bool_literal s = (inl (EBool false), adv s 5).
Proof.
  intros H. unfold TemplateParserModel.bool_literal, literal, scan. change (skipn (sc_pos (save_pos s)) (sc_chars (save_pos s))) with (rest_of s). rewrite H.
  cbn [chars map list_ascii_of_string app scan_loop]. change (chr "f") with 102%N. change (chr "a") with 97%N. change (chr "l") with 108%N. change (chr "s") with 115%N. change (chr "e") with 101%N.
  change (bool_cb P F [102%N]) with (Some (@Require (expr P F))). cbn iota. change (bool_cb P F [102; 97]%N) with (Some (@Require (expr P F))). cbn iota. change (bool_cb P F [102; 97; 108]%N) with (Some (@Require (expr P F))). cbn iota.
  change (bool_cb P F [102; 97; 108; 115]%N) with (Some (@Require (expr P F))). cbn iota.
  change (bool_cb P F [102; 97; 108; 115; 101]%N) with (Some (Return (@EBool P F false))). cbn iota. apply (f_equal (pair _)). unfold adv, at_pos, pop_pos, save_pos. cbn [sc_pos sc_chars sc_stack tl]. f_equal. lia.
Qed.
Lemma null_hit s r : rest_of s = chars "null" ++ r -> null_literal s = (inl ENull, adv s 4).
Proof.
  intros H. unfold TemplateParserModel.null_literal, literal, scan. change (skipn (sc_pos (save_pos s)) (sc_chars (save_pos s))) with (rest_of s). rewrite H.
  cbn [chars map list_ascii_of_string app scan_loop]. change (chr "n") with 110%N. change (chr "u") with 117%N. change (chr "l") with 108%N.
  change (null_cb P F [110%N]) with (Some (@Require (expr P F))). cbn iota. change (null_cb P F [110; 117]%N) with (Some (@Require (expr P F))). cbn iota. change (null_cb P F [110; 117; 108]%N) with (Some (@Require (expr P F))). cbn iota.
  change (null_cb P F [110; 117; 108; 108]%N) with (Some (Return (@ENull P F))). cbn iota. apply (f_equal (pair _)). unfold adv, at_pos, pop_pos, save_pos. cbn [sc_pos sc_chars sc_stack tl]. f_equal. lia.
Qed.

(** ** Numbers *)
Definition not_num (r : text) : Prop := match r with [] => True | c :: _ => is_digit c = false /\ c <> c_point end.
Definition digits (a : text) : Prop := forall c, In c a -> is_digit c = true.
Lemma digits_of a : (forall c, In c a -> (48 <= c <= 57)%N) -> digits a.
Proof. intros H c Hc. unfold is_digit. rewrite andb_true_iff, !N.leb_le. now apply H. Qed.
Lemma digit_neq c d : is_digit c = true -> is_digit d = false -> (c =? d)%N = false.
Proof. intros H1 H2. apply N.eqb_neq. congruence. Qed.
Lemma float_step first passed c l : is_digit c = true -> float_span first passed (c :: l) = (c :: fst (float_span false passed l), snd (float_span false passed l)).
Proof.
  intros H. cbn [float_span]. rewrite (digit_neq c c_dash), (digit_neq c c_point) by (exact H || reflexivity). cbn [andb]. rewrite H. now destruct (float_span false passed l).
Qed.
Lemma float_digits passed a r : digits a -> float_span false passed (a ++ r) = (a ++ fst (float_span false passed r), snd (float_span false passed r)).
Proof.
  induction a as [|c a IH]; intros Ha; cbn [app]; [now destruct (float_span false passed r)|]. rewrite float_step by (apply Ha; now left).
  rewrite IH by (intros d Hd; apply Ha; now right). reflexivity.
Qed.
Lemma float_first a r passed : digits a -> a <> [] -> float_span true passed (a ++ r) = float_span false passed (a ++ r).
Proof. intros Ha Hne. destruct a as [|c a]; [now elim Hne|]. cbn [app]. now rewrite !float_step by (apply Ha; now left). Qed.
Lemma float_stop passed r : not_num r -> float_span false passed r = ([], passed).
Proof.
  destruct r as [|c r]; [reflexivity|]. intros [H1 H2]. cbn [float_span]. rewrite andb_false_r, (proj2 (N.eqb_neq _ _) H2). cbn [andb]. now rewrite H1.
Qed.
Lemma float_signed sign l : (sign = [] \/ sign = chars "-") -> digits (firstn 1 l) -> l <> [] -> float_span true false (sign ++ l) = (sign ++ fst (float_span false false l), snd (float_span false false l)).
Proof.
  intros [-> | ->] Hd Hne.
  - cbn [app]. destruct l as [|c l]; [now elim Hne|]. rewrite !float_step by (apply Hd; now left). reflexivity.
  - cbn [app chars map list_ascii_of_string float_span]. change (chr "-" =? c_dash)%N with true. cbn [andb]. now destruct (float_span false false l).
Qed.
Lemma float_hit s t r f : rest_of s = t ++ r -> float_text t -> parse_float t = Some f -> not_num r -> float_literal s = (inl (EFloat f), adv s (length t)).
Proof.
  intros H (sign & a & b & Et & Hs & [Hna Ha] & [Hnb Hb]) Hf Hr. unfold TemplateParserModel.float_literal. rewrite rest_save, H.
  apply digits_of in Ha. apply digits_of in Hb.
  assert (E : float_span true false (t ++ r) = (t, true)).
  { rewrite Et. rewrite <- !app_assoc. rewrite float_signed; [|exact Hs| |].
    - rewrite float_digits by exact Ha. cbn [app chars map list_ascii_of_string float_span]. change (chr "." =? c_dash)%N with false. change (chr "." =? c_point)%N with true. cbn [andb negb].
      rewrite float_digits by exact Hb. rewrite (float_stop true r Hr). cbn [fst snd]. now rewrite app_nil_r.
    - destruct a as [|c a]; [now elim Hna|]. cbn [app firstn]. intros d [<-|[]]. apply Ha. now left.
    - destruct a; [now elim Hna|discriminate]. }
  rewrite E. destruct t as [|c t]; [destruct sign, a; discriminate|]. cbn [negb]. rewrite Hf. apply (f_equal (pair _)), save_pop.
Qed.
Lemma digits_mean_digits t z : digits_mean t z -> digits t /\ t <> [].
Proof.
  assert (D : forall d, (0 <= d <= 9)%Z -> is_digit (Z.to_N (48 + d)) = true). { intros d Hd. unfold is_digit. rewrite andb_true_iff, !N.leb_le. lia. }
  induction 1 as [d Hd|t v d _ [IH _] Hd].
  - split; [|discriminate]. intros c [<-|[]]. now apply D.
  - split; [|now destruct t]. intros c Hc. apply in_app_or in Hc. destruct Hc as [Hc|[<-|[]]]; [now apply IH|now apply D].
Qed.
Lemma int_shape t z : int_text t z -> ~ In 43%N t -> exists sign a, t = sign ++ a /\ (sign = [] \/ sign = chars "-") /\ digits a /\ a <> [].
Proof.
  intros [_ [H|[(ds & -> & _)|(ds & -> & H)]]] Hp'.
  - apply digits_mean_digits in H. exists [], t. tauto.
  - elim Hp'. now left.
  - apply digits_mean_digits in H. exists (chars "-"), ds. tauto.
Qed.
Lemma float_miss_int s sign a r : rest_of s = (sign ++ a) ++ r -> (sign = [] \/ sign = chars "-") -> digits a -> a <> [] -> not_num r -> float_literal s = (inr TChar, s).
Proof.
  intros H Hs Ha Hna Hr. unfold TemplateParserModel.float_literal. rewrite rest_save, H, <- app_assoc. rewrite float_signed; [|exact Hs| |].
  - rewrite float_digits by exact Ha. rewrite (float_stop false r Hr). cbn [fst snd negb].
    destruct (sign ++ a ++ []); apply (f_equal (pair _)), save_back.
  - destruct a as [|c a]; [now elim Hna|]. cbn [app firstn]. intros d [<-|[]]. apply Ha. now left.
  - destruct a; [now elim Hna|discriminate].
Qed.
Lemma int_digits first a r : digits a -> not_num r -> (a = [] -> first = false) -> int_span first (a ++ r) = a.
Proof.
  revert first. induction a as [|c a IH]; intros first Ha Hr Hf.
  - rewrite (Hf eq_refl). destruct r as [|c r]; [reflexivity|]. cbn [app int_span]. rewrite andb_false_r. cbn [orb]. now rewrite (proj1 Hr).
  - cbn [app int_span]. rewrite (Ha c (or_introl eq_refl)), orb_true_r. rewrite IH; [reflexivity| |exact Hr|reflexivity]. intros d Hd. apply Ha. now right.
Qed.
Lemma int_hit s t z r : rest_of s = t ++ r -> int_text t z -> ~ In 43%N t -> not_num r -> int_literal s = (inl (EInt z), adv s (length t)).
Proof.
  intros H Ht Hp' Hr. destruct (int_shape t z Ht Hp') as (sign & a & Et & Hs & Ha & Hna). unfold TemplateParserModel.int_literal. rewrite rest_save, H.
  assert (E : int_span true (t ++ r) = t).
  { rewrite Et, <- app_assoc. destruct Hs as [-> | ->]; cbn [app chars map list_ascii_of_string].
    - apply int_digits; [exact Ha|exact Hr|congruence].
    - cbn [int_span]. change (chr "-" =? c_dash)%N with true. cbn [andb orb]. f_equal. now apply int_digits. }
  rewrite E. apply parse_i64_iff in Ht. rewrite Ht. destruct t; [discriminate|]. apply (f_equal (pair _)), save_pop.
Qed.
Lemma num_miss s c r : rest_of s = c :: r -> is_digit c = false -> c <> c_dash -> c <> c_point ->
  float_literal s = (inr TChar, s) /\ int_literal s = (inr TChar, s).
Proof.
  intros H H1 H2 H3. unfold TemplateParserModel.float_literal, TemplateParserModel.int_literal. rewrite rest_save, H. cbn [float_span int_span].
  rewrite (proj2 (N.eqb_neq _ _) H2), (proj2 (N.eqb_neq _ _) H3), H1. cbn [andb orb length]. split; apply (f_equal (pair _)); apply save_back.
Qed.

(** ** Strings *)
Lemma escaped_span v r prev rest : escaped v r -> ~ ends_with_backslash v -> (v = [] -> prev <> c_bslash) -> string_span prev (r ++ c_dquote :: rest) = Some r.
Proof.
  intros He. revert prev. induction He as [|c v r Hc He IH|v r He IH]; intros prev Hb Hprev.
  - cbn [app string_span]. rewrite N.eqb_refl. specialize (Hprev eq_refl). rewrite (proj2 (N.eqb_neq _ _) Hprev). reflexivity.
  - cbn [app string_span]. rewrite (proj2 (N.eqb_neq c c_dquote) Hc). cbn [andb]. rewrite IH; [reflexivity| |].
    + intros (u & ->). apply Hb. exists (c :: u). reflexivity.
    + intros -> ->. apply Hb. exists []. reflexivity.
  - cbn [app string_span]. change (92 =? c_dquote)%N with false. change (34 =? c_dquote)%N with true. change (92 =? c_bslash)%N with true. cbn [andb negb]. rewrite IH; [reflexivity| |].
    + intros (u & ->). apply Hb. exists (34%N :: u). reflexivity.
    + discriminate.
Qed.
Lemma escaped_head v r : escaped v r -> match r with c :: _ => c <> 34%N | [] => True end.
Proof. destruct 1; [exact I|assumption|discriminate]. Qed.
Lemma unescape_cons c r : ~ (c = c_bslash /\ hd_error r = Some c_dquote) -> unescape (c :: r) = c :: unescape r.
Proof.
  intros H. destruct r as [|d r]; [reflexivity|]. cbn [unescape hd_error] in *. destruct (N.eqb_spec c c_bslash); [|reflexivity]. destruct (N.eqb_spec d c_dquote); [|reflexivity]. elim H. now subst.
Qed.
Lemma escaped_unescape v r : escaped v r -> unescape r = v.
Proof.
  induction 1 as [|c v r Hc He IH|v r He IH]; [reflexivity| |].
  - rewrite unescape_cons; [now rewrite IH|]. intros [-> Hh]. apply escaped_head in He. destruct r as [|d r]; [discriminate|]. injection Hh as ->. now apply He.
  - cbn [unescape]. change (92 =? c_bslash)%N with true. change (34 =? c_dquote)%N with true. cbn [andb]. now rewrite IH.
Qed.
Lemma string_hit s v r rest : rest_of s = (34%N :: r ++ [34%N]) ++ rest -> escaped v r -> ~ ends_with_backslash v ->
  string_literal s = (inl (EStr v), adv s (length (34%N :: r ++ [34%N]))).
Proof.
  intros H He Hb. unfold TemplateParserModel.string_literal. cbn [app] in H. rewrite <- app_assoc in H. cbn [app] in H.
  rewrite (take_adv (save_pos s) c_dquote (r ++ 34%N :: rest) H).
  assert (H' : rest_of (adv (save_pos s) 1) = r ++ c_dquote :: rest) by (apply (rest_app _ [34%N]); exact H).
  rewrite H', (escaped_span v r 32%N rest He Hb) by (intros _; discriminate). rewrite (escaped_unescape v r He). apply (f_equal (pair _)).
  unfold pop_pos, adv, at_pos, save_pos. cbn [sc_pos sc_chars sc_stack tl length]. rewrite app_length. cbn [length]. f_equal. lia.
Qed.
(** ** Arguments that are not calls *)
Lemma arg_path fuel s t b r p : 3 <= fuel -> rest_of s = t ++ b ++ r -> path_text t -> parse_path t = Some p -> blanks b -> closing r ->
  func_arg fuel s = (inl (EPath p), adv s (length t + length b)).
Proof.
  intros Hf H Ht Hpp Hb Hr. destruct fuel as [|n]; [lia|]. rewrite func_arg_S.
  assert (H0 : exists r', rest_of s = 36%N :: r'). { destruct Ht as (u & -> & _). eexists. rewrite H. reflexivity. }
  destruct H0 as [r' H0]. rewrite (call_fail_start n s 36 r'); [|lia|exact H0|now rewrite ws_ascii|unfold name_start; now rewrite al_ascii].
  now rewrite (path_hit s t b r p H Ht Hpp Hb Hr).
Qed.
Lemma arg_others n s c r : rest_of s = c :: r -> starts_other c -> func_call n s = (inr TChar, s) -> func_arg (S n) s = others s.
Proof.
  intros H Hc Hf. rewrite func_arg_S. rewrite Hf, (path_miss s c r H Hc), peek_rest, H. cbn [hd_error].
  assert (E : (c =? c_dollar)%N = false). { apply N.eqb_neq. intros ->. destruct Hc as [Hc|[Hc|[[Hc|[]]|Hc]]]; discriminate. }
  rewrite E. reflexivity.
Qed.
Lemma keyword_name w : In w [chars "true"; chars "false"; chars "null"] -> func_name_text k w.
Proof.
  assert (L : forall c, is_letter c = true -> (c < 128)%N). { intros c. unfold is_letter. rewrite orb_true_iff, !andb_true_iff, !N.leb_le. lia. }
  intros H. assert (A : exists c t, w = c :: t /\ forallb is_letter (c :: t) = true) by (repeat (destruct H as [<-|H]; [do 2 eexists; split; reflexivity|]); destruct H).
  destruct A as (c & t & -> & A). cbn in A. apply andb_prop in A. destruct A as [A1 A2]. exists c, t. split; [reflexivity|]. split; [left; rewrite al_ascii; auto|].
  intros d Hd. left. rewrite forallb_forall in A2. rewrite al_ascii; auto.
Qed.
Lemma closing_not_num b r : blanks b -> closing r -> not_num (b ++ r).
Proof.
  intros Hb Hr. destruct b as [|c b]; cbn.
  - destruct r as [|c r]; [exact I|]. destruct Hr as [-> | ->]; split; (reflexivity || discriminate).
  - assert (N : forall d, (d < 128)%N -> is_blank d = false -> c <> d). { intros d H1 H2 ->. apply (ws_not d H1 H2 (d :: b) (or_introl eq_refl) Hb). }
    split; [|now apply N]. destruct (is_digit c) eqn:E; [|reflexivity]. exfalso. unfold is_digit in E. rewrite andb_true_iff, !N.leb_le in E.
    specialize (Hb c (or_introl eq_refl)). rewrite ws_ascii in Hb by lia. unfold is_blank in Hb. rewrite orb_true_iff, N.eqb_eq, andb_true_iff, !N.leb_le in Hb. lia.
Qed.
Lemma num_start_facts sign a : (sign = [] \/ sign = chars "-") -> digits a -> a <> [] ->
  exists c t, sign ++ a = c :: t /\ (c = c_dash \/ is_digit c = true).
Proof.
  intros [-> | ->] Ha Hna; destruct a as [|c a]; try (now elim Hna).
  - exists c, a. split; [reflexivity|]. right. apply Ha. now left.
  - exists 45%N, (c :: a). split; [reflexivity|now left].
Qed.
Lemma dash_digit_facts c : c = c_dash \/ is_digit c = true -> starts_other c /\ whitespace k c = false /\ name_start k c = false /\ c <> 116%N /\ c <> 102%N /\ c <> 110%N /\ c <> c_rparen /\ (c < 128)%N.
Proof.
  intros H. assert (L : (c = 45 \/ 48 <= c <= 57)%N). { destruct H as [->|H]; [now left|right]. unfold is_digit in H. rewrite andb_true_iff, !N.leb_le in H. exact H. }
  split; [destruct H as [->|H]; [right; right; left; now left|right; now left]|].
  split. { rewrite ws_ascii by lia. unfold is_blank. apply orb_false_iff. rewrite N.eqb_neq, andb_false_iff, !N.leb_gt. lia. }
  split. { unfold name_start, c_underscore. rewrite al_ascii by lia. unfold is_letter. rewrite !orb_false_iff, !andb_false_iff, !N.leb_gt, N.eqb_neq. lia. }
  unfold c_rparen. lia.
Qed.
Lemma arg_int fuel s t z b r : 3 <= fuel -> rest_of s = t ++ b ++ r -> int_text t z -> ~ In 43%N t -> blanks b -> closing r ->
  func_arg fuel s = (inl (EInt z), adv s (length t)).
Proof.
  intros Hf H Ht Hpl Hb Hr. destruct fuel as [|n]; [lia|]. pose proof (closing_not_num b r Hb Hr) as Hn.
  destruct (int_shape t z Ht Hpl) as (sign & a & -> & Hs & Ha & Hna). destruct (num_start_facts sign a Hs Ha Hna) as (c & u & Eu & Hc).
  pose proof (dash_digit_facts c Hc) as (F1 & F2 & F3 & F4 & F5 & F6 & _ & _). assert (H1 : rest_of s = c :: u ++ b ++ r) by (rewrite H, Eu; reflexivity).
  rewrite (arg_others n s c _ H1 F1); [|now apply (call_fail_start n s c (u ++ b ++ r)); [lia|..]]. unfold others.
  rewrite (bool_miss s c _ H1 F4 F5), (null_miss s c _ H1 F6), (float_miss_int s sign a (b ++ r) H Hs Ha Hna Hn).
  now rewrite (int_hit s (sign ++ a) z (b ++ r) H Ht Hpl Hn).
Qed.
Lemma arg_float fuel s t f b r : 3 <= fuel -> rest_of s = t ++ b ++ r -> float_text t -> parse_float t = Some f -> blanks b -> closing r ->
  func_arg fuel s = (inl (EFloat f), adv s (length t)).
Proof.
  intros Hf H Ht Hpf Hb Hr. destruct fuel as [|n]; [lia|]. pose proof (closing_not_num b r Hb Hr) as Hn.
  pose proof Ht as (sign & a & b' & Et & Hs & [Hna Ha] & _). destruct (num_start_facts sign a Hs (digits_of a Ha) Hna) as (c & u & Eu & Hc).
  pose proof (dash_digit_facts c Hc) as (F1 & F2 & F3 & F4 & F5 & F6 & _ & _). assert (H1 : exists v, rest_of s = c :: v). { rewrite H, Et, <- !app_assoc, (app_assoc sign a), Eu. eexists. reflexivity. }
  destruct H1 as [v H1]. rewrite (arg_others n s c _ H1 F1); [|now apply (call_fail_start n s c v); [lia|..]]. unfold others.
  rewrite (bool_miss s c _ H1 F4 F5), (null_miss s c _ H1 F6). now rewrite (float_hit s t (b ++ r) f H Ht Hpf Hn).
Qed.
Lemma arg_str fuel s v w r : 3 <= fuel -> rest_of s = (34%N :: w ++ [34%N]) ++ r -> escaped v w -> ~ ends_with_backslash v ->
  func_arg fuel s = (inl (EStr v), adv s (length (34%N :: w ++ [34%N]))).
Proof.
  intros Hf H He Hb. destruct fuel as [|n]; [lia|]. assert (H1 : rest_of s = 34%N :: (w ++ [34%N]) ++ r) by exact H.
  rewrite (arg_others n s 34%N _ H1); [|now (right; right; right)|apply (call_fail_start n s 34%N ((w ++ [34%N]) ++ r)); [lia|exact H1|now rewrite ws_ascii|unfold name_start; now rewrite al_ascii]]. unfold others.
  rewrite (bool_miss s 34%N _ H1), (null_miss s 34%N _ H1) by discriminate. destruct (num_miss s 34%N _ H1) as [-> ->]; [reflexivity|discriminate..|].
  now rewrite (string_hit s v w r H He Hb).
Qed.
Lemma arg_keyword fuel s w e b r : 3 <= fuel -> rest_of s = w ++ b ++ r -> blanks b -> closing r ->
  In (w, e) [(chars "true", EBool true); (chars "false", EBool false); (chars "null", ENull)] -> func_arg fuel s = (inl e, adv s (length w)).
Proof.
  intros Hf H Hb Hr Hin. destruct fuel as [|n]; [lia|].
  assert (Hc : func_call n s = (inr TChar, s)). { apply (call_fail_paren n s w b r); [lia|exact H| |exact Hb|exact Hr]. apply keyword_name. repeat (destruct Hin as [Hin|Hin]; [injection Hin as <- <-; cbn; tauto|]). destruct Hin. }
  destruct Hin as [Hin|[Hin|[Hin|[]]]]; injection Hin as <- <-.
  - rewrite (arg_others n s 116%N _ H); [|now left|exact Hc]. unfold others. now rewrite (true_hit s _ H).
  - rewrite (arg_others n s 102%N _ H); [|now left|exact Hc]. unfold others. now rewrite (false_hit s _ H).
  - rewrite (arg_others n s 110%N _ H); [|now left|exact Hc]. unfold others. rewrite (bool_miss s 110%N _ H) by discriminate. now rewrite (null_hit s _ H).
Qed.

(** ** Everything *)
Notation arg_written := (arg_written k P parse_path F parse_float).
Notation call_written := (call_written k P parse_path F parse_float).
Notation args_written := (args_written k P parse_path F parse_float).
Lemma arg_head a t : arg_written a t -> exists c u, t = c :: u /\ whitespace k c = false /\ c <> c_rparen /\ c <> c_comma.
Proof.
  assert (L : forall c, name_start k c = true -> whitespace k c = false /\ c <> c_rparen /\ c <> c_comma).
  { intros c Hc. split; [|split].
    - destruct (whitespace k c) eqn:E; [|reflexivity]. apply name_not_blank in E. unfold name_start, name_char in *. destruct (alphabetic k c), (c =? c_underscore)%N, (is_digit c); discriminate.
    - intros ->. unfold name_start in Hc. rewrite al_ascii in Hc by reflexivity. discriminate.
    - intros ->. unfold name_start in Hc. rewrite al_ascii in Hc by reflexivity. discriminate. }
  assert (K : forall c, c = c_dash \/ is_digit c = true -> whitespace k c = false /\ c <> c_rparen /\ c <> c_comma).
  { intros c Hc. pose proof (dash_digit_facts c Hc) as (_ & F2 & _ & _ & _ & _ & F7 & _). split; [exact F2|]. split; [exact F7|]. intros ->. destruct Hc; discriminate. }
  assert (G : forall w, func_name_text k w -> exists c u, w = c :: u /\ name_start k c = true). { intros w (c & u & -> & Hc & _). exists c, u. split; [reflexivity|]. now apply name_start_iff. }
  destruct 1 as [v r _ _|z t Hz Hpl|f t Hf _| | | |p t (u & -> & _) _|c t Hc].
  - eexists _, _. split; [reflexivity|]. split; [now rewrite ws_ascii|split; discriminate].
  - destruct (int_shape t z Hz Hpl) as (sign & a & -> & Hs & Ha & Hna). destruct (num_start_facts sign a Hs Ha Hna) as (c & u & -> & Hc). exists c, u. split; [reflexivity|now apply K].
  - destruct Hf as (sign & a & b & -> & Hs & [Hna Ha] & _). destruct (num_start_facts sign a Hs (digits_of a Ha) Hna) as (c & u & E & Hc). rewrite (app_assoc sign a), E. eexists c, _. split; [reflexivity|now apply K].
  - eexists _, _. split; [reflexivity|]. split; [now rewrite ws_ascii|split; discriminate].
  - eexists _, _. split; [reflexivity|]. split; [now rewrite ws_ascii|split; discriminate].
  - eexists _, _. split; [reflexivity|]. split; [now rewrite ws_ascii|split; discriminate].
  - eexists _, _. split; [reflexivity|]. split; [now rewrite ws_ascii|split; discriminate].
  - destruct Hc as [n args b inner Hn _ _]. destruct (G n Hn) as (c & u & -> & Hc). eexists c, _. split; [reflexivity|now apply L].
Qed.
Lemma loop_blanks b : forall s r fuel, rest_of s = b ++ r -> blanks b -> length b <= fuel -> args_loop fuel s = args_loop (fuel - length b) (adv s (length b)).
Proof.
  induction b as [|c b IH]; intros s r fuel H Hb Hf; cbn [length] in *.
  - now rewrite Nat.sub_0_r, adv_0.
  - destruct fuel as [|n]; [lia|]. rewrite args_loop_S. rewrite peek_rest, H. cbn [hd_error app]. rewrite (Hb c (or_introl eq_refl)).
    rewrite (pop_adv s c (b ++ r) H). rewrite (IH (adv s 1) r n); [|apply (rest_app s [c]); exact H|intros d Hd; apply Hb; now right|lia]. rewrite adv_adv. reflexivity.
Qed.
Definition ends (r : text) : Prop := r = [] \/ exists r', r = c_rparen :: r'.
Definition past (r : text) : nat := match r with [] => 0 | _ => 1 end.
Lemma ends_closing r : ends r -> closing r.
Proof. intros [->|(r' & ->)]; [exact I|now right]. Qed.
Lemma loop_end s r fuel : rest_of s = r -> ends r -> 1 <= fuel -> args_loop fuel s = (inl [], adv s (past r)).
Proof.
  intros H Hr Hf. destruct fuel as [|n]; [lia|]. rewrite args_loop_S. rewrite peek_rest, H. destruct Hr as [->|(r' & ->)]; cbn [hd_error past].
  - now rewrite adv_0.
  - rewrite ws_ascii by reflexivity. change (is_blank c_rparen) with false. cbn iota. rewrite N.eqb_refl. now rewrite (pop_adv s c_rparen r' H).
Qed.
Definition Parg (a : expr P F) (t : text) : Prop := forall s b r fuel, rest_of s = t ++ b ++ r -> blanks b -> closing r -> 4 * length t + 3 <= fuel ->
  exists j, (j = 0 \/ j = length b) /\ func_arg fuel s = (inl a, adv s (length t + j)).
Definition Pcall (c : call P F) (t : text) : Prop := forall s b r fuel, rest_of s = b ++ t ++ r -> blanks b -> 4 * length t <= fuel ->
  func_call fuel s = (inl c, adv s (length b + length t)).
Definition Pargs (args : list (expr P F)) (t : text) : Prop := forall s r fuel, rest_of s = t ++ r -> ends r -> 4 * length t + 4 <= fuel ->
  args_loop fuel s = (inl args, adv s (length t + past r)).
(** One argument with the blanks around it, and what the loop does next *)
Lemma loop_arg a t b1 b2 s r fuel : arg_written a t -> Parg a t -> rest_of s = b1 ++ t ++ b2 ++ r -> blanks b1 -> blanks b2 -> closing r -> 4 * length (b1 ++ t) + 4 <= fuel ->
  args_loop fuel s = match r with
                     | [] => map_fst (cons a) (args_loop (fuel - length b1 - 1) (adv s (length (b1 ++ t ++ b2))))
                     | c :: _ => if (c =? c_comma)%N then map_fst (cons a) (args_loop (fuel - length b1 - 1) (adv s (length (b1 ++ t ++ b2) + 1)))
                                 else map_fst (cons a) (args_loop (fuel - length b1 - 1) (adv s (length (b1 ++ t ++ b2))))
                     end.
Proof.
  intros Hw IHa H Hb1 Hb2 Hr Hf. rewrite app_length in Hf. rewrite (loop_blanks b1 s (t ++ b2 ++ r) fuel H Hb1) by lia.
  pose proof (rest_app s b1 _ H) as H1. destruct (arg_head a t Hw) as (c & u & -> & Hc1 & Hc2 & _).
  destruct (fuel - length b1) as [|n] eqn:En; [cbn [length] in Hf; lia|]. replace (S n - 1) with n by lia. rewrite args_loop_S. rewrite peek_rest, H1. cbn [hd_error app]. rewrite Hc1, (proj2 (N.eqb_neq _ _) Hc2).
  destruct (IHa (adv s (length b1)) b2 r n H1 Hb2 Hr) as (j & Hj & ->); [cbn [length] in *; lia|].
  assert (H2 : skip_blanks (adv (adv s (length b1)) (length (c :: u) + j)) = adv s (length (b1 ++ (c :: u) ++ b2))).
  { destruct Hj as [-> | ->].
    - rewrite Nat.add_0_r. rewrite (skip_adv _ b2 r); [|apply rest_app; exact H1|exact Hb2|exact (closing_no_blank r Hr)]. rewrite !adv_adv, !app_length. f_equal; lia.
    - rewrite <- app_length. rewrite (skip_adv _ [] r); [|cbn [app]; apply rest_app; cbn [app]; rewrite <- app_assoc; exact H1|intros x []|exact (closing_no_blank r Hr)]. rewrite !adv_adv, !app_length. f_equal; cbn [length]; lia. }
  change (c :: u ++ b2) with ((c :: u) ++ b2). rewrite H2.
  assert (H3 : rest_of (adv s (length (b1 ++ (c :: u) ++ b2))) = r). { apply rest_app. rewrite H, <- !app_assoc. reflexivity. }
  destruct r as [|d r].
  - rewrite take_no by (rewrite H3; discriminate). rewrite peek_rest, H3. reflexivity.
  - destruct (N.eqb_spec d c_comma) as [->|Hd].
    + rewrite (take_adv _ c_comma r H3). now rewrite adv_adv.
    + rewrite take_no by (rewrite H3; cbn; congruence). rewrite peek_rest, H3. cbn [hd_error]. destruct Hr as [Hr| ->]; [now elim Hd|]. rewrite N.eqb_refl. reflexivity.
Qed.
Lemma parse_written_all : (forall a t, arg_written a t -> Parg a t) /\ (forall c t, call_written c t -> Pcall c t) /\ (forall args t, args_written args t -> Pargs args t).
Proof.
  apply (written_ind k P parse_path F parse_float (fun a t _ => Parg a t) (fun c t _ => Pcall c t) (fun args t _ => Pargs args t)).
  - intros v r He Hb s b rest fuel H Hbb Hc Hf. exists 0. split; [now left|]. rewrite Nat.add_0_r. apply (arg_str fuel s v r (b ++ rest)); [lia|exact H|exact He|exact Hb].
  - intros z t Hz Hpl s b r fuel H Hb Hc Hf. exists 0. split; [now left|]. rewrite Nat.add_0_r. apply (arg_int fuel s t z b r); auto; lia.
  - intros f t Hft Hpf s b r fuel H Hb Hc Hf. exists 0. split; [now left|]. rewrite Nat.add_0_r. apply (arg_float fuel s t f b r); auto; lia.
  - intros s b r fuel H Hb Hc Hf. exists 0. split; [now left|]. rewrite Nat.add_0_r. apply (arg_keyword fuel s (chars "true") (EBool true) b r); auto; [lia|now left].
  - intros s b r fuel H Hb Hc Hf. exists 0. split; [now left|]. rewrite Nat.add_0_r. apply (arg_keyword fuel s (chars "false") (EBool false) b r); auto; [lia|right; now left].
  - intros s b r fuel H Hb Hc Hf. exists 0. split; [now left|]. rewrite Nat.add_0_r. apply (arg_keyword fuel s (chars "null") ENull b r); auto; [lia|right; right; now left].
  - intros p t Ht Hpp s b r fuel H Hb Hc Hf. exists (length b). split; [now right|]. apply (arg_path fuel s t b r p); auto; lia.
  - intros c t Hc IH s b r fuel H Hb Hcl Hf. exists 0. split; [now left|]. destruct fuel as [|n]; [lia|]. rewrite func_arg_S. rewrite (IH s [] (b ++ r) n); [|exact H|intros x []|lia]. now rewrite Nat.add_0_r.
  - intros n args b inner Hn Hb Ha IH s b0 r fuel H Hb0 Hf. rewrite !app_length in Hf. cbn [length chars map list_ascii_of_string] in Hf.
    assert (Hnl : 1 <= length n) by (destruct Hn as (c & t & -> & _); cbn; lia).
    destruct fuel as [|[|f]]; try lia. rewrite func_call_S.
    assert (Hb' : match b ++ chars "(" ++ inner ++ chars ")" ++ r with [] => True | c :: _ => name_char k c = false end).
    { destruct b as [|x b]; cbn; [|apply name_not_blank, Hb; now left]. change (name_char k 40 = false); destruct (name_char k 40) eqn:E; [|reflexivity]. apply name_char_iff in E. destruct E as [E|[E|E]]; [rewrite al_ascii in E by reflexivity; discriminate| |discriminate]. vm_compute in E. destruct E as [E _]. now elim E. }
    assert (H' : rest_of (save_pos s) = b0 ++ n ++ b ++ chars "(" ++ inner ++ chars ")" ++ r). { rewrite rest_save, H, <- !app_assoc. reflexivity. }
    rewrite (name_adv (save_pos s) b0 n _ H' Hb0 Hn Hb'). rewrite func_args_S.
    assert (H1 : rest_of (adv (save_pos s) (length b0 + length n)) = b ++ chars "(" ++ inner ++ chars ")" ++ r). { rewrite <- app_length. apply rest_app. rewrite <- app_assoc. exact H'. }
    rewrite (skip_adv _ b _ H1 Hb); [|cbn; now rewrite ws_ascii]. pose proof (rest_app _ b _ H1) as H2.
    rewrite (take_adv _ c_lparen (inner ++ chars ")" ++ r) H2). rewrite !adv_adv.
    assert (H3 : rest_of (adv (save_pos s) (length b0 + length n + length b + 1)) = inner ++ c_rparen :: r).
    { rewrite adv_adv in H2. rewrite <- adv_adv. apply (rest_app _ (chars "(")). exact H2. }
    replace (length b0 + length n + (length b + 1)) with (length b0 + length n + length b + 1) by lia.
    rewrite (IH _ (c_rparen :: r) f H3); [|right; eauto|lia]. cbn [past]. rewrite adv_adv. rewrite save_pop. apply (f_equal (pair _)).
    rewrite !app_length. cbn [length chars map list_ascii_of_string]. f_equal. lia.
  - intros b Hb s r fuel H Hr Hf. rewrite (loop_blanks b s r fuel H Hb) by lia. rewrite (loop_end _ r); [now rewrite adv_adv|apply rest_app; exact H|exact Hr|lia].
  - intros b1 a t b2 Hb1 Hw IH Hb2 s r fuel H Hr Hf. rewrite <- !app_assoc in H. rewrite !app_length in Hf.
    rewrite (loop_arg a t b1 b2 s r fuel Hw IH H Hb1 Hb2 (ends_closing r Hr)) by (rewrite app_length; lia).
    assert (E : rest_of (adv s (length (b1 ++ t ++ b2))) = r) by (apply rest_app; rewrite <- !app_assoc; exact H).
    pose proof (loop_end _ r (fuel - length b1 - 1) E Hr) as L. destruct (arg_head a t Hw) as (c & u & -> & _). cbn [length] in Hf.
    destruct Hr as [->|(r' & ->)]; [|change (c_rparen =? c_comma)%N with false; cbn iota]; rewrite L by lia; cbn [map_fst]; now rewrite adv_adv.
  - intros b1 a t b2 a' args rest Hb1 Hw IH Hb2 Hws IHs s r fuel H Hr Hf. rewrite <- !app_assoc in H. rewrite !app_length in Hf. cbn [length chars map list_ascii_of_string] in Hf.
    rewrite (loop_arg a t b1 b2 s (chars "," ++ rest ++ r) fuel Hw IH H Hb1 Hb2) by (now left || (rewrite app_length; lia)).
    cbn [app chars map list_ascii_of_string]. change (chr "," =? c_comma)%N with true. cbn iota.
    assert (E : rest_of (adv s (length (b1 ++ t ++ b2) + 1)) = rest ++ r).
    { rewrite <- adv_adv. apply (rest_app _ (chars ",")). apply rest_app. rewrite <- !app_assoc. exact H. }
    destruct (arg_head a t Hw) as (c & u & -> & _). cbn [length] in Hf.
    rewrite (IHs _ r _ E Hr) by lia. cbn [map_fst]. apply (f_equal (pair _)). rewrite adv_adv. f_equal. rewrite !app_length. cbn [length]. lia.
Qed.
Lemma call_parsed c t b r : call_written c t -> blanks b -> parse_func k P parse_path F parse_float (b ++ t ++ r) = inl c.
Proof.
  intros H Hb. unfold parse_func. rewrite (proj1 (proj2 parse_written_all) c t H (new_scanner (b ++ t ++ r)) b r); [reflexivity|reflexivity|exact Hb|].
  unfold parse_fuel. rewrite !app_length. lia.
Qed.
End Params.
