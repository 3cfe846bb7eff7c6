(** Theorems about parsing template function calls (C21, C68). *)
From Verif Require Import Base Chars ScannerModel ScannerSpec ScannerProofs ResolveModel ResolveSpec TemplateParserModel TemplateParserSpec TemplateParserProofs TemplateParserTerm.
Local Open Scope list_scope.

Section Params.
Variable k : classes.
Variable P : Type.
Variable parse_path : text -> option P.
Variable F : Type.
Variable parse_float : text -> option F.
Notation parse := (parse_func k P parse_path F parse_float).
Notation blanks := (blanks k).
Notation func_call := (func_call k P parse_path F parse_float).
Notation args_loop := (args_loop k P parse_path F parse_float).
Notation func_arg := (func_arg k P parse_path F parse_float).

(** ** C21 *)
(** A call written in the documented syntax, with blanks before it, is understood as written. *)
Theorem C21_parse_written : proper k -> path_parser k P parse_path -> forall c b t,
  call_written k P parse_path F parse_float c t -> blanks b -> parse (b ++ t) = inl c.
Proof. intros Hk Hp c b t H Hb. pose proof (call_parsed k P parse_path F parse_float Hk Hp c t b [] H Hb) as E. now rewrite app_nil_r in E. Qed.
(** No text at all is understood as a call with a string that ends with a backslash. *)
Theorem C21_trailing_backslash_refuted : forall t c v,
  parse t = inl c -> string_in_expr P F v (ECall c) -> ~ ends_with_backslash v.
Proof.
  intros t c v H Hv. unfold parse_func in H. destruct (func_call (parse_fuel t) (new_scanner t)) as [r s'] eqn:E. cbn in H. subst r.
  exact (proj1 (parse_clean k P parse_path F parse_float _) _ _ _ E v Hv).
Qed.

(** The scanner after the name and the opening parenthesis *)
Lemma after_paren n u m s : proper k -> rest_of s = n ++ chars "(" ++ u -> func_name_text k n ->
  func_call (S (S m)) s = match args_loop m (adv (save_pos s) (length n + 1)) with
                          | (inl args, s2) => (inl (Call n args), pop_pos s2)
                          | (inr e, s2) => (inr e, backtrack s2)
                          end /\
  rest_of (adv (save_pos s) (length n + 1)) = u.
Proof.
  intros Hk H Hn. rewrite func_call_S. assert (Hb : blanks []) by (intros x []).
  rewrite (name_adv k Hk (save_pos s) [] n (chars "(" ++ u) H Hb Hn).
  2:{ cbn. change (name_char k 40 = false). destruct (name_char k 40) eqn:E; [|reflexivity]. apply name_char_iff in E. destruct E as [E|[E|E]]; [rewrite (al_ascii k Hk) in E by reflexivity; discriminate| |discriminate]. vm_compute in E. destruct E as [E _]. now elim E. }
  cbn [length Nat.add]. rewrite func_args_S. assert (H1 : rest_of (adv (save_pos s) (length n)) = chars "(" ++ u) by (apply rest_app; exact H).
  rewrite (skip_adv k _ [] _ H1 Hb); [|cbn; now rewrite (ws_ascii k Hk)]. cbn [length]. rewrite adv_0. rewrite (take_adv _ c_lparen u H1). rewrite adv_adv. split; [reflexivity|].
  rewrite <- adv_adv. apply (rest_app _ (chars "(") u). exact H1.
Qed.
Lemma parse_fuel_SS n u : func_name_text k n -> exists m, parse_fuel (n ++ chars "(" ++ u) = S (S (S (S (S (S m))))).
Proof.
  intros (c & t & -> & _). exists (4 * length (t ++ chars "(" ++ u) + 2). unfold parse_fuel. cbn [app length]. lia.
Qed.
(** A JSON path ends for the parser at the first closing parenthesis outside of brackets, and
    brackets inside of brackets are not counted: where the part of the path before that is
    not a path, the call is refused. *)
Theorem C21_path_cut_refuted : proper k -> forall n u w,
  func_name_text k n -> path_body u -> parse_path (chars "$" ++ u) = None ->
  parse (n ++ chars "(" ++ chars "$" ++ u ++ chars ")" ++ w) = inr TPath.
Proof.
  intros Hk n u w Hn Hu Hpp. unfold parse_func. destruct (parse_fuel_SS n (chars "$" ++ u ++ chars ")" ++ w) Hn) as [m ->].
  destruct (after_paren n (chars "$" ++ u ++ chars ")" ++ w) (S (S (S (S m)))) (new_scanner (n ++ chars "(" ++ chars "$" ++ u ++ chars ")" ++ w)) Hk eq_refl Hn) as [-> H].
  set (s := adv _ _) in *. rewrite args_loop_S. rewrite peek_rest, H. cbn [hd_error chars map list_ascii_of_string app].
  change (chr "$") with c_dollar. rewrite (ws_ascii k Hk) by reflexivity. change (is_blank c_dollar) with false. change (c_dollar =? c_rparen)%N with false. cbn iota.
  rewrite func_arg_S. rewrite (call_fail_start k P parse_path F parse_float (S (S m)) s c_dollar (u ++ chars ")" ++ w)); [|lia|exact H|now rewrite (ws_ascii k Hk)|unfold name_start; now rewrite (al_ascii k Hk)].
  rewrite (path_cut P parse_path F parse_float s u (chars ")" ++ w) H Hu); [|now right|exact Hpp]. rewrite peek_rest, H. reflexivity.
Qed.

(** ** C68 *)
(** The parser always ends with a call or with one of the errors of the code ([TFuel] is the
    only outcome that is not one). *)
Theorem C68_terminates : forall t, parse t <> inr TFuel.
Proof. exact (parse_no_fuel k P parse_path F parse_float). Qed.
(** What is accepted starts with a function name and an opening parenthesis. *)
Theorem C68_accepted_start : forall t n args, parse t = inl (Call n args) ->
  exists b b' r, t = b ++ n ++ b' ++ chars "(" ++ r /\ blanks b /\ func_name_text k n /\ blanks b'.
Proof.
  intros t n args. unfold parse_func. destruct (parse_fuel t) as [|f]; [discriminate|]. rewrite func_call_S. unfold func_name.
  assert (Sk : forall s, exists b, rest_of s = b ++ rest_of (skip_blanks k s) /\ blanks b).
  { intros s. unfold skip_blanks, take_while. change (skipn (sc_pos s) (sc_chars s)) with (rest_of s). cbn [snd]. exists (fst (span (whitespace k) (rest_of s))).
    destruct (span (whitespace k) (rest_of s)) as [x y] eqn:E. cbn [fst]. pose proof (span_app (whitespace k) (rest_of s)) as Q. rewrite E in Q. cbn [fst snd] in Q. split.
    - change (at_pos s (sc_pos s + length x)) with (adv s (length x)). symmetry in Q. rewrite (rest_app s x y Q). exact Q.
    - pose proof (span_all (whitespace k) (rest_of s)) as A. rewrite E in A. cbn in A. rewrite forallb_forall in A. exact A. }
  destruct (Sk (save_pos (new_scanner t))) as (b & E1 & Hb). set (s1 := skip_blanks k _) in *. rewrite peek_rest. destruct (rest_of s1) as [|c r1] eqn:R1; [discriminate|]. cbn [hd_error].
  destruct (name_start k c) eqn:Ec; [|discriminate]. rewrite (pop_adv s1 c r1 R1). unfold take_while. change (skipn (sc_pos (adv s1 1)) (sc_chars (adv s1 1))) with (rest_of (adv s1 1)).
  pose proof (rest_app s1 [c] r1 R1) as R1'. cbn [length] in R1'. rewrite R1'. destruct (span (name_char k) r1) as [x y] eqn:E. cbn [fst]. pose proof (span_app (name_char k) r1) as Q. rewrite E in Q. cbn [fst snd] in Q.
  pose proof (span_all (name_char k) r1) as A. rewrite E in A. cbn in A.
  destruct f as [|f]; [discriminate|]. rewrite func_args_S. change (at_pos (adv s1 1) (sc_pos (adv s1 1) + length x)) with (adv (adv s1 1) (length x)).
  assert (R2 : rest_of (adv (adv s1 1) (length x)) = y). { apply rest_app. rewrite R1'. now symmetry. }
  destruct (Sk (adv (adv s1 1) (length x))) as (b' & E2 & Hb'). rewrite R2 in E2. set (s2 := skip_blanks k (adv (adv s1 1) (length x))) in *. destruct (take c_lparen s2) as [[] s3] eqn:Et; [|discriminate].
  assert (R3 : exists r, rest_of s2 = c_lparen :: r).
  { destruct (take_fwd c_lparen s2 true s3 Et) as (_ & T & _). destruct (T eq_refl) as [_ T']. rewrite peek_rest in T'. destruct (rest_of s2) as [|d r]; [discriminate|]. injection T' as ->. eauto. }
  destruct R3 as [r R3]. destruct (args_loop f s3) as [[l|] s4]; [|discriminate]. cbn [fst]. intros H; injection H as <- <-.
  exists b, b', r. split; [|split; [exact Hb|split; [|exact Hb']]].
  - change t with (rest_of (save_pos (new_scanner t))). rewrite E1. cbn [app]. rewrite <- Q, E2, R3. reflexivity.
  - exists c, x. split; [reflexivity|]. split; [now apply name_start_iff|]. intros d Hd. apply name_char_iff. rewrite forallb_forall in A. now apply A.
Qed.
(** The closing parenthesis may be missing. *)
Theorem C68_unclosed_refuted : proper k -> path_parser k P parse_path -> forall n args inner,
  func_name_text k n -> args_written k P parse_path F parse_float args inner ->
  parse (n ++ chars "(" ++ inner) = inl (Call n args).
Proof.
  intros Hk Hp n args inner Hn Ha. unfold parse_func, parse_fuel. rewrite !app_length. replace (4 * (length n + (length (chars "(") + length inner)) + 4) with (S (S (4 * length n + 4 * length inner + 6))) by (cbn; lia).
  destruct (after_paren n inner (4 * length n + 4 * length inner + 6) (new_scanner (n ++ chars "(" ++ inner)) Hk eq_refl Hn) as [-> H].
  rewrite (proj2 (proj2 (parse_written_all k P parse_path F parse_float Hk Hp)) args inner Ha _ []); [reflexivity|now rewrite app_nil_r|now left|lia].
Qed.
(** Any text may follow the call. *)
Theorem C68_trailing_refuted : proper k -> path_parser k P parse_path -> forall c t r,
  call_written k P parse_path F parse_float c t -> parse (t ++ r) = inl c.
Proof. intros Hk Hp c t r H. apply (call_parsed k P parse_path F parse_float Hk Hp c t [] r H). intros x []. Qed.
(** A word made of a t and digits is read as the number in it: [f(t5)] is the call [f(5)]. *)
Theorem C68_misread_refuted : proper k -> path_parser k P parse_path -> forall n d z,
  func_name_text k n -> all_digits d -> int_text d z ->
  parse (n ++ chars "(" ++ chars "t" ++ d ++ chars ")") = inl (Call n [EInt z]).
Proof.
  intros Hk Hp n d z Hn [Hne Hd] Hz. unfold parse_func. destruct (parse_fuel_SS n (chars "t" ++ d ++ chars ")") Hn) as [m ->].
  destruct (after_paren n (chars "t" ++ d ++ chars ")") (S (S (S (S m)))) (new_scanner (n ++ chars "(" ++ chars "t" ++ d ++ chars ")")) Hk eq_refl Hn) as [-> H].
  set (s := adv _ _) in *. rewrite args_loop_S. rewrite peek_rest, H. cbn [hd_error chars map list_ascii_of_string app].
  change (chr "t") with 116%N. rewrite (ws_ascii k Hk) by reflexivity. change (is_blank 116) with false. change (116 =? c_rparen)%N with false. cbn iota.
  assert (Hcall : func_call (S (S m)) s = (inr TChar, s)).
  { apply (call_fail_paren k P parse_path F parse_float Hk (S (S m)) s (chars "t" ++ d) [] (chars ")")); [lia| | |intros x []|now right].
    - rewrite H, <- app_assoc. reflexivity.
    - exists 116%N, d. split; [reflexivity|]. split; [left; rewrite (al_ascii k Hk); reflexivity|]. intros x Hx. right. left. now apply Hd. }
  rewrite (arg_others k P parse_path F parse_float Hp (S (S m)) s 116%N (d ++ chars ")") H (or_introl eq_refl) Hcall). unfold others.
  destruct d as [|c d']; [now elim Hne|]. set (d := c :: d') in *.
  assert (Hc : (48 <= c <= 57)%N) by (apply Hd; now left). assert (Hdd : digits d) by (now apply digits_of).
  set (s' := {| sc_pos := sc_pos s + 1; sc_chars := sc_chars s; sc_stack := sc_pos s :: sc_stack s |}).
  assert (Eb : bool_literal P F s = (inr TChar, s')).
  { unfold bool_literal, literal, scan. change (skipn (sc_pos (save_pos s)) (sc_chars (save_pos s))) with (rest_of (save_pos s)). rewrite rest_save, H. cbn [app chars map list_ascii_of_string scan_loop].
    change (bool_cb P F [chr "t"]) with (Some (Require : scan_action (expr P F))). cbn iota. unfold d. cbn [app scan_loop]. 
    assert (E : bool_cb P F ([chr "t"] ++ [c]) = None).
    { unfold bool_cb. repeat match goal with |- context [text_eqb ?a ?b] => destruct (text_eqb a b) eqn:?X; [unfold text_eqb in *; destruct (text_eq_dec a b) as [Y|]; [exfalso; injection Y; intros; cbn in *; lia|discriminate]|] end. reflexivity. }
    cbn [app] in E. rewrite E. reflexivity. }
  rewrite Eb. assert (H' : rest_of s' = d ++ chars ")") by (apply (rest_app s (chars "t") (d ++ chars ")") H)).
  assert (Nn : not_num (chars ")")) by (split; [reflexivity|discriminate]).
  rewrite (null_miss P F s' c (d' ++ chars ")")) by (exact H' || (intros ->; lia)).
  rewrite (float_miss_int P F parse_float s' [] d (chars ")") H' (or_introl eq_refl) Hdd Hne Nn).
  rewrite (int_hit P F parse_float s' d z (chars ")") H' Hz); [|intros Hin; specialize (Hd _ Hin); lia|exact Nn].
  assert (H2 : rest_of (adv s' (length d)) = chars ")") by (apply rest_app; exact H').
  rewrite (skip_adv k _ [] (chars ")") H2); [|intros x []|cbn; now rewrite (ws_ascii k Hk)]. cbn [length]. rewrite adv_0.
  rewrite take_no by (rewrite H2; discriminate). rewrite peek_rest, H2. cbn [hd_error chars map list_ascii_of_string]. change (negb (chr ")" =? c_rparen)%N) with false. cbn iota.
  rewrite (loop_end k P parse_path F parse_float Hk _ (chars ")")); [reflexivity|exact H2|right; now exists []|lia].
Qed.
End Params.

(** ** The hypotheses are met. *)
Lemma ascii_proper : proper ascii_classes.
Proof.
  split; [exact ascii_sane|]. intros c H. cbn in *. unfold is_blank, is_letter in *. rewrite orb_true_iff, N.eqb_eq, andb_true_iff, !N.leb_le in H.
  rewrite orb_false_iff, !andb_false_iff, !N.leb_gt. lia.
Qed.
(** A path parser: starts with a dollar sign and has as many closing as opening brackets *)
Definition some_paths (t : text) : option unit :=
  match t with
  | 36%N :: _ => if Nat.eqb (length (filter (N.eqb 91) t)) (length (filter (N.eqb 93) t)) then Some tt else None
  | _ => None
  end.
Lemma some_path_parser : path_parser ascii_classes unit some_paths.
Proof.
  split.
  - intros c t H. unfold some_paths. destruct (N.eq_dec c 36) as [->|Hc]; [exfalso; destruct H as [H|[H|[[H|[]]|H]]]; discriminate|].
    destruct c as [|p]; [reflexivity|]. do 6 (destruct p as [p|p|]; try reflexivity). now elim Hc.
  - intros t b Hb. assert (Hz : forall x, x = 91%N \/ x = 93%N -> filter (N.eqb x) b = []).
    { intros x Hx. destruct (filter (N.eqb x) b) as [|y l] eqn:E; [reflexivity|]. assert (Hy : In y (filter (N.eqb x) b)) by (rewrite E; now left). apply filter_In in Hy. destruct Hy as [Hy Exy]. apply N.eqb_eq in Exy. subst y.
      specialize (Hb x Hy). destruct Hx as [-> | ->]; discriminate. }
    destruct t as [|c t].
    + cbn [app]. destruct b as [|x b]; [reflexivity|]. assert (x <> 36%N) as Hx by (intros ->; specialize (Hb 36%N (or_introl eq_refl)); discriminate).
      unfold some_paths. destruct x as [|p]; [reflexivity|]. do 6 (destruct p as [p|p|]; try reflexivity). now elim Hx.
    + unfold some_paths. cbn [app]. rewrite app_comm_cons, !filter_app, !Hz, !app_nil_r by tauto. reflexivity.
Qed.
Notation written := (call_written ascii_classes unit some_paths Z (fun _ => Some 0%Z)).
Notation parsed := (parse_func ascii_classes unit some_paths Z (fun _ => Some 0%Z)).
Local Ltac no_blanks := intros ? [].
Local Ltac one_blank := intros ? [<-|[]]; reflexivity.
Local Ltac name := eexists _, _; split; [reflexivity|split; [left; reflexivity|]]; intros d Hd; cbn in Hd; repeat (destruct Hd as [<-|Hd]; [(left; reflexivity) || (right; left; cbv; split; discriminate)|]); destruct Hd.
Example C21_nonvacuous :
  written (Call (chars "format") [EStr (chars """hi"" {}"); EPath tt; ECall (Call (chars "len") [ECall (Call (chars "list") [EInt (-2); EBool true])]); ENull])
          (chars "format(""\""hi\"" {}"", $.a['b,c'],len(list(-2,true )),null)").
Proof.
  change (chars "format(""\""hi\"" {}"", $.a['b,c'],len(list(-2,true )),null)")
    with (chars "format" ++ [] ++ chars "(" ++ ([] ++ (34%N :: chars "\""hi\"" {}" ++ [34%N]) ++ [] ++ chars "," ++
          (chars " " ++ chars "$.a['b,c']" ++ [] ++ chars "," ++ ([] ++ (chars "len" ++ [] ++ chars "(" ++ ([] ++ (chars "list" ++ [] ++ chars "(" ++
             ([] ++ chars "-2" ++ [] ++ chars "," ++ ([] ++ chars "true" ++ chars " ")) ++ chars ")") ++ []) ++ chars ")") ++ [] ++ chars "," ++
          ([] ++ chars "null" ++ [])))) ++ chars ")").
  constructor; [name|no_blanks|]. constructor; [no_blanks| |no_blanks|].
  { constructor.
    - change (chars """hi"" {}") with (34 :: 104 :: 105 :: 34 :: 32 :: 123 :: 125 :: [])%N. change (chars "\""hi\"" {}") with (92 :: 34 :: 104 :: 105 :: 92 :: 34 :: 32 :: 123 :: 125 :: [])%N.
      repeat (apply esc_quote || (apply esc_char; [discriminate|]) || apply esc_nil).
    - intros [u Hu]. change (chars """hi"" {}") with ((34 :: 104 :: 105 :: 34 :: 32 :: 123 :: []) ++ [125])%N in Hu. apply app_inj_tail in Hu. destruct Hu; discriminate. }
  constructor; [one_blank| |no_blanks|].
  { constructor; [|reflexivity]. exists (chars ".a['b,c']"). split; [reflexivity|]. change (chars ".a['b,c']") with (46%N :: 97%N :: 91%N :: chars "'b,c'" ++ 93%N :: []).
    constructor; [intros H; vm_compute in H; intuition discriminate|]. constructor; [intros H; vm_compute in H; intuition discriminate|]. apply (pb_brackets (chars "'b,c'") []); [|constructor].
    change (chars "'b,c'") with (chars "'b,c'" ++ []). apply ib_quoted; [|apply ib_nil]. exists (chars "b,c"). split; [reflexivity|]. intros c Hc. vm_compute in Hc. intuition (subst; discriminate). }
  constructor; [no_blanks| |no_blanks|].
  { constructor. constructor; [name|no_blanks|]. constructor; [no_blanks| |no_blanks]. constructor. constructor; [name|no_blanks|]. constructor; [no_blanks| |no_blanks|].
    - constructor; [|intros H; vm_compute in H; intuition discriminate]. split; [vm_compute; split; discriminate || reflexivity|]. right. right. exists (chars "2"). split; [reflexivity|]. apply (dm_one 2). lia.
    - constructor; [no_blanks| |one_blank]. constructor. }
  constructor; [no_blanks|constructor|no_blanks].
Qed.
Example C21_nonvacuous_path : path_body (chars ".a[?(@.b[0] > 1") /\ some_paths (chars "$.a[?(@.b[0] > 1)]") = Some tt /\ some_paths (chars "$.a[?(@.b[0] > 1") = None /\
  parsed (chars "len($.a[?(@.b[0] > 1)])") = inr TPath.
Proof.
  split; [|split; [reflexivity|split; [reflexivity|]]].
  - change (chars ".a[?(@.b[0] > 1") with (46%N :: 97%N :: 91%N :: chars "?(@.b[0" ++ 93%N :: chars " > 1"). do 2 (constructor; [intros H; vm_compute in H; intuition discriminate|]).
    apply (pb_brackets (chars "?(@.b[0") (chars " > 1")); [repeat (constructor; try discriminate)|]. repeat (constructor; [intros H; vm_compute in H; intuition discriminate|]). constructor.
  - vm_compute. reflexivity.
Qed.
Example C68_nonvacuous :
  func_name_text ascii_classes (chars "list") /\ args_written ascii_classes unit some_paths Z (fun _ => Some 0%Z) [EBool true] (chars " true") /\
  parsed (chars "list( true") = inl (Call (chars "list") [EBool true]) /\
  parsed (chars "list(true) and more") = inl (Call (chars "list") [EBool true]) /\
  parsed (chars "list(t57)") = inl (Call (chars "list") [EInt 57]) /\
  parsed (chars "7list(true)") = inr TChar.
Proof.
  split; [name|]. split; [change (chars " true") with (chars " " ++ chars "true" ++ []); constructor; [one_blank|constructor|no_blanks]|].
  repeat split; vm_compute; reflexivity.
Qed.

Print Assumptions C21_parse_written.
Print Assumptions C21_trailing_backslash_refuted.
Print Assumptions C21_path_cut_refuted.
Print Assumptions C68_terminates.
Print Assumptions C68_accepted_start.
Print Assumptions C68_unclosed_refuted.
Print Assumptions C68_trailing_refuted.
Print Assumptions C68_misread_refuted.
