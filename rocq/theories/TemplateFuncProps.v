(** Theorems about the template functions (C23, C24, C25). *)
From Coq Require Import Reals ZArith.
From Flocq Require Import Core.Core IEEE754.BinarySingleNaN.
From Verif Require Import Base Json Chars Value Bytes TemplateFuncModel TemplateFuncSpec TemplateFuncProofs TemplateNumSpec TemplateNumProofs.
Local Open Scope list_scope.

(** ** C23 *)
(** Chunks of a positive size *)
Theorem C23_chunk_list : forall l n, (1 <= n)%Z ->
  exists cs, chunk_list [VArr l; VNum (NInt n)] = Ok (VArr (map VArr cs)) /\ chunked n l cs.
Proof.
  intros l n Hn. cbn [chunk_list as_u64]. rewrite (proj2 (Z.leb_le 0 n)) by lia. rewrite (proj2 (Z.eqb_neq n 0)) by lia. eexists. split; [reflexivity|].
  destruct (Z.leb_spec (Z.of_nat (length l)) n) as [H|H]; [now apply chunked_whole|]. rewrite <- (Z2Nat.id n) at 1 by lia. apply chunks_ok; lia.
Qed.
(** Zero, negative and fractional sizes crash instead of giving an error. *)
Theorem C23_chunk_size_refuted : forall l n, (forall z, n = NInt z -> (z <= 0)%Z) -> chunk_list [VArr l; VNum n] = Panic.
Proof.
  intros l [z|f] H; [|reflexivity]. specialize (H z eq_refl). cbn. destruct (Z.leb_spec 0 z); [|reflexivity]. now replace z with 0%Z by lia.
Qed.
Theorem C23_list_elem : forall before x after i, i = Z.of_nat (length before) ->
  list_elem [VArr (before ++ x :: after); VNum (NInt i)] = Ok x.
Proof.
  intros before x after i ->. cbn [list_elem as_u64]. rewrite (proj2 (Z.leb_le 0 _)) by lia. rewrite (proj2 (Z.leb_gt _ _)) by (rewrite app_length; cbn [length]; lia).
  rewrite Nat2Z.id, nth_error_app2 by lia. now rewrite Nat.sub_diag.
Qed.
Theorem C23_list_elem_out_of_range : forall l i, (Z.of_nat (length l) <= i)%Z -> list_elem [VArr l; VNum (NInt i)] = Err InvalidInput.
Proof. intros l i H. cbn [list_elem as_u64]. rewrite (proj2 (Z.leb_le 0 i)) by lia. now rewrite (proj2 (Z.leb_le _ _) H). Qed.
(** Negative and fractional indexes crash instead of giving an error. *)
Theorem C23_index_refuted : forall l n, (forall z, n = NInt z -> (z < 0)%Z) -> list_elem [VArr l; VNum n] = Panic.
Proof. intros l [z|f] H; [|reflexivity]. specialize (H z eq_refl). cbn. destruct (Z.leb_spec 0 z); [lia|reflexivity]. Qed.
Theorem C23_remove_duplicates : forall l, exists u, remove_duplicates [VArr l] = Ok (VArr u) /\ first_ones [] l u.
Proof. intros l. exists (keep_unique l). split; [reflexivity|apply keep_unique_first]. Qed.
Theorem C23_contains : forall l v, exists b, contains_fn [VArr l; v] = Ok (VBool b) /\ (b = true <-> exists e, In e l /\ same_value e v).
Proof. intros l v. eexists. split; [reflexivity|apply existsb_same]. Qed.
Theorem C23_contains_text : forall h n, exists b, contains_fn [VStr h; VStr n] = Ok (VBool b) /\ (b = true <-> occurs n h).
Proof. intros h n. eexists. split; [reflexivity|]. apply contains_spec. Qed.
Theorem C23_len : forall l, len [VArr l] = Ok (VNum (NInt (Z.of_nat (length l)))).
Proof. reflexivity. Qed.
(** The length of a string is not its number of characters once one is not ASCII. *)
Theorem C23_len_text_refuted : forall t, exists n, len [VStr t] = Ok (VNum (NInt (Z.of_nat n))) /\
  ((forall c, In c t -> (c < 128)%N) -> n = length t) /\ ((exists c, In c t /\ (128 <= c)%N) -> length t < n).
Proof.
  intros t. exists (length (utf8 t)). split; [reflexivity|].
  assert (L : forall c, 1 <= length (utf8_char c) /\ ((128 <= c)%N -> 2 <= length (utf8_char c)) /\ ((c < 128)%N -> length (utf8_char c) = 1)).
  { intros c. rewrite utf8_char_length. unfold utf8_len. destruct (N.ltb_spec c 128), (N.ltb_spec c 2048), (N.ltb_spec c 65536); lia. }
  assert (G : length t <= length (utf8 t)). { induction t as [|c t IH]; [reflexivity|]. unfold utf8 in *. cbn [map concat length]. rewrite app_length. specialize (L c). lia. }
  split.
  - intros H. induction t as [|c t IH]; [reflexivity|]. unfold utf8 in *. cbn [map concat length]. rewrite app_length, (proj2 (proj2 (L c)) (H c (or_introl eq_refl))). cbn. f_equal. apply IH; [|intros d Hd; apply H; now right].
    clear - L. induction t as [|d t IH]; [reflexivity|]. cbn [map concat length]. rewrite app_length. specialize (L d). lia.
  - intros (c & Hc & H). apply in_split in Hc. destruct Hc as (a & b & ->). unfold utf8. rewrite map_app, concat_app, !app_length. cbn [map concat length]. rewrite app_length.
    assert (K : forall u, length u <= length (concat (map utf8_char u))). { clear - L. induction u as [|d u IH]; [reflexivity|]. cbn [map concat length]. rewrite app_length. specialize (L d). lia. }
    pose proof (K a). pose proof (K b). pose proof (proj1 (proj2 (L c)) H). lia.
Qed.

(** ** C24 *)
Theorem C24_split : forall t sep, sep <> [] ->
  exists ps, split [VStr t; VStr sep] = Ok (VArr (map VStr ps)) /\ cut sep t ps /\ join sep ps = t /\ forall p, In p ps -> ~ occurs sep p.
Proof.
  intros t sep H. exists (split_text sep t). split; [reflexivity|]. pose proof (split_cut sep t H) as C. split; [exact C|]. split; [now apply cut_join|].
  apply Forall_forall. exact (cut_clean sep t _ H C).
Qed.
(** With an empty separator every character is a piece, with an empty piece before and after. *)
Theorem C24_split_empty_refuted : forall t, exists ps, split [VStr t; VStr []] = Ok (VArr (map VStr ps)) /\
  ps = [] :: map (fun c => [c]) t ++ [[]] /\ join [] ps = t /\ forall p, In p ps -> occurs [] p.
Proof.
  intros t. eexists. split; [reflexivity|]. split; [reflexivity|]. split.
  - assert (J : forall ps, ps <> [] -> join [] ps = concat ps). { induction ps as [|p [|q ps] IH]; intros H; [contradiction|cbn; now rewrite app_nil_r|]. change (join [] (p :: q :: ps)) with (p ++ join [] (q :: ps)). rewrite IH by discriminate. reflexivity. }
    rewrite J by discriminate. clear J. cbn. induction t as [|c t IH]; [reflexivity|]. cbn. f_equal. exact IH.
  - intros p _. exists [], p. reflexivity.
Qed.
Theorem C24_jsonmerge : forall a b, keys_sorted a -> keys_sorted b ->
  exists m, jsonmerge [VObj a; VObj b] = Ok (VObj m) /\ keys_sorted m /\
    forall k, get k m = match get k b with Some v => Some v | None => get k a end.
Proof. intros a b Ha Hb. exists (set_all b a). split; [reflexivity|]. split; [now apply set_all_sorted|]. intros k. now apply get_set_all. Qed.
Theorem C24_base64 : forall t, Forall scalar_value t ->
  exists e, b64encode [VStr t] = Ok (VStr e) /\ b64decode [VStr e] = Ok (VStr t).
Proof.
  intros t H. exists (b64_enc (utf8 t)). split; [reflexivity|]. cbn [b64decode]. pose proof (utf8_bytes t H) as Hb. rewrite utf8_ascii by (now apply b64_enc_ascii).
  rewrite b64_round by exact Hb. now rewrite utf8_lossy.
Qed.
(** Bytes that are not UTF-8 are not decoded to themselves: different encodings decode to the
    same replacement character. *)
Theorem C24_base64_bytes_refuted : forall x, (128 <= x < 256)%N -> b64decode [VStr (b64_enc [x])] = Ok (VStr [65533%N]).
Proof.
  intros x H. cbn [b64decode]. rewrite utf8_ascii by (apply b64_enc_ascii; constructor; [lia|constructor]). rewrite b64_round by (constructor; [lia|constructor]).
  cbn [lossy]. rewrite (proj2 (N.ltb_ge x 128)) by lia. now repeat match goal with |- context [if ?b then _ else _] => destruct b end.
Qed.
Section Format.
Variable show_num : num -> text.
(** How an argument is written *)
Definition shown (v : value) (t : text) : Prop :=
  v = VStr t \/ (exists n, v = VNum n /\ t = show_num n) \/ (exists b : bool, v = VBool b /\ t = chars (if b then "true" else "false")) \/ (v = VNull /\ t = chars "null").
Lemma shown_arg v t : shown v t -> format_arg show_num v = Some t.
Proof. intros [->|[(n & -> & ->)|[(b & -> & ->)|[-> ->]]]]; reflexivity. Qed.
(** A hash is the digest of the text's bytes by the named algorithm; other algorithms, other
    types and other numbers of arguments are errors. *)
Theorem C24_hash : forall sha256 sha384 sha512 args,
  match args with
  | [VStr a; VStr t] =>
      (a = chars "SHA256" /\ hash sha256 sha384 sha512 args = Ok (VStr (sha256 (utf8 t)))) \/
      (a = chars "SHA384" /\ hash sha256 sha384 sha512 args = Ok (VStr (sha384 (utf8 t)))) \/
      (a = chars "SHA512" /\ hash sha256 sha384 sha512 args = Ok (VStr (sha512 (utf8 t)))) \/
      (~ In a [chars "SHA256"; chars "SHA384"; chars "SHA512"] /\ hash sha256 sha384 sha512 args = Err InvalidArgument)
  | [_; _] => hash sha256 sha384 sha512 args = Err InvalidArgument
  | _ => hash sha256 sha384 sha512 args = Err IncorrectNumberOfArguments
  end.
Proof.
  intros h2 h3 h5 [|a [|b [|c l]]]; try reflexivity.
  - destruct a; reflexivity.
  - destruct a as [| | |a| |]; try reflexivity. destruct b as [| | |t| |]; try reflexivity. unfold hash.
    destruct (text_eqb a (chars "SHA256")) eqn:E2; [apply text_eqb_eq in E2; auto|].
    destruct (text_eqb a (chars "SHA384")) eqn:E3; [apply text_eqb_eq in E3; auto|].
    destruct (text_eqb a (chars "SHA512")) eqn:E5; [apply text_eqb_eq in E5; auto|].
    right; right; right. split; [|reflexivity].
    assert (N: forall x, text_eqb a x = false -> x <> a) by (intros x X ->; rewrite (proj2 (text_eqb_eq _ _) eq_refl) in X; discriminate).
    intros [X|[X|[X|[]]]]; now apply N in X.
  - destruct a; try reflexivity; destruct b; reflexivity.
Qed.

(** The i-th placeholder is replaced by the i-th argument when no argument contains a brace
    and none is empty (or the text around the placeholders has no brace either). *)
Theorem C24_format : forall ps args ts, Forall2 shown args ts -> length ps = S (length ts) ->
  (forall p, In p ps -> ~ occurs (chars "{}") p) -> (forall t, In t ts -> no_braces t) ->
  ((forall t, In t ts -> t <> []) \/ (forall p, In p ps -> no_braces p)) ->
  format show_num (VStr (join (chars "{}") ps) :: args) = Ok (VStr (fill ps ts)).
Proof.
  intros ps args ts Ha Hl Hps Hts Hor. apply format_fill; [|exact Hl|now apply Forall_forall|now apply Forall_forall|destruct Hor; [left|right]; now apply Forall_forall].
  clear - Ha. induction Ha; constructor; auto using shown_arg.
Qed.
(** An argument with a placeholder in it is filled with the next argument. *)
Theorem C24_format_nested_refuted : forall p q r x, ~ occurs (chars "{}") p -> ~ occurs (chars "{}") q -> ~ occurs (chars "{}") r ->
  format show_num [VStr (join (chars "{}") [p; q; r]); VStr (chars "{}"); VStr x] = Ok (VStr (fill [p; q; r] [x; chars "{}"])).
Proof.
  intros p q r x Hp Hq Hr. cbn [format]. change (chars "{}") with braces. rewrite split_join by (try discriminate; repeat constructor; assumption). cbn [length Nat.sub Nat.eqb format_loop format_arg join].
  rewrite (replace_braces p braces (q ++ braces ++ r)) by exact Hp. rewrite (replace_braces p x (q ++ braces ++ r)) by exact Hp. reflexivity.
Qed.
(** The number of arguments must be the number of placeholders, and arrays and objects are
    refused. *)
Theorem C24_format_count : forall ps args, ps <> [] -> (forall p, In p ps -> ~ occurs (chars "{}") p) -> length ps <> S (length args) ->
  format show_num (VStr (join (chars "{}") ps) :: args) = Err IncorrectNumberOfArguments.
Proof.
  intros ps args Hn Hps Hl. cbn [format]. change (chars "{}") with braces. rewrite split_join by (try assumption; now apply Forall_forall).
  destruct (Nat.eqb_spec (length args) (length ps - 1)) as [E|]; [|reflexivity]. destruct ps; [contradiction|]. cbn in *. lia.
Qed.
Theorem C24_format_types : forall f args v, In v args -> (exists l, v = VArr l) \/ (exists m, v = VObj m) -> forall r, format show_num (VStr f :: args) <> Ok r.
Proof.
  intros f args v Hin Hv r. cbn [format]. destruct (Nat.eqb _ _); [|discriminate]. revert f. induction args as [|a args IH]; intros f; [destruct Hin|]. cbn [format_loop]. destruct Hin as [->|Hin].
  - destruct Hv as [[l ->]|[m ->]]; discriminate.
  - destruct (format_arg show_num a); [now apply IH|discriminate].
Qed.
End Format.

(** ** C25 *)
(** The arguments are converted to doubles and the result is the double nearest to the exact
    result of the operation; a result beyond the doubles crashes (the refuted part). *)
Theorem C25_add : forall a b, doc_num a -> doc_num b ->
  let r := nearest (nearest (real a) + nearest (real b)) in fits r ->
  exists f, math_add [VNum a; VNum b] = Ok (VNum (NFloat f)) /\ doc_num (NFloat f) /\ real (NFloat f) = r.
Proof. intros a b Ha Hb. exact (proj1 (add_ok a b Ha Hb)). Qed.
Theorem C25_sub : forall a b, doc_num a -> doc_num b ->
  let r := nearest (nearest (real a) - nearest (real b)) in fits r ->
  exists f, math_sub [VNum a; VNum b] = Ok (VNum (NFloat f)) /\ doc_num (NFloat f) /\ real (NFloat f) = r.
Proof. intros a b Ha Hb. exact (proj1 (sub_ok a b Ha Hb)). Qed.
Theorem C25_mult : forall a b, doc_num a -> doc_num b ->
  let r := nearest (nearest (real a) * nearest (real b)) in fits r ->
  exists f, math_mult [VNum a; VNum b] = Ok (VNum (NFloat f)) /\ doc_num (NFloat f) /\ real (NFloat f) = r.
Proof. intros a b Ha Hb. exact (proj1 (mult_ok a b Ha Hb)). Qed.
Theorem C25_div : forall a b, doc_num a -> doc_num b -> real b <> 0%R ->
  let r := nearest (nearest (real a) / nearest (real b)) in fits r ->
  exists f, math_div [VNum a; VNum b] = Ok (VNum (NFloat f)) /\ doc_num (NFloat f) /\ real (NFloat f) = r.
Proof. intros a b Ha Hb Hz. exact (proj1 (div_ok a b Ha Hb Hz)). Qed.
(** Integers up to 2^53 and floats are taken as they are. *)
Theorem C25_exact_arguments : forall n, doc_num n -> (forall z, n = NInt z -> (- 2 ^ 53 <= z <= 2 ^ 53)%Z) -> nearest (real n) = real n.
Proof.
  intros [z|f] Hd H; cbn [real].
  - apply nearest_int. now apply H.
  - destruct Hd as [Hv Hf]. apply round_generic; [apply valid_rnd_N|]. rewrite <- (B2SF_SF2B 53 1024 f Hv), SF2R_B2SF. apply (generic_format_B2R 53 1024).
Qed.
Theorem C25_div_by_zero : forall a b, doc_num b -> real b = 0%R -> math_div [VNum a; VNum b] = Err InvalidInput.
Proof. exact div_zero. Qed.
Theorem C25_overflow_refuted : forall a b, doc_num a -> doc_num b ->
  (~ fits (nearest (nearest (real a) + nearest (real b))) -> math_add [VNum a; VNum b] = Panic) /\
  (~ fits (nearest (nearest (real a) - nearest (real b))) -> math_sub [VNum a; VNum b] = Panic) /\
  (~ fits (nearest (nearest (real a) * nearest (real b))) -> math_mult [VNum a; VNum b] = Panic) /\
  (real b <> 0%R -> ~ fits (nearest (nearest (real a) / nearest (real b))) -> math_div [VNum a; VNum b] = Panic).
Proof.
  intros a b Ha Hb. split; [exact (proj2 (add_ok a b Ha Hb))|]. split; [exact (proj2 (sub_ok a b Ha Hb))|]. split; [exact (proj2 (mult_ok a b Ha Hb))|]. intros Hz. exact (proj2 (div_ok a b Ha Hb Hz)).
Qed.
(** A computed number is never an integer again: used as an index, a chunk size or a bound
    of a random number it crashes. *)
Theorem C25_computed_index_refuted : forall op a b n, In op [math_add; math_sub; math_mult; math_div] ->
  op [VNum a; VNum b] = Ok (VNum n) -> forall l k draw_range other,
  list_elem [VArr l; VNum n] = Panic /\ chunk_list [VArr l; VNum n] = Panic /\ math_rand draw_range k [VNum n; other] = Panic.
Proof.
  intros op a b n Hop H l k draw_range other. assert (E : exists f, n = NFloat f).
  { assert (A : forall o, arith o [VNum a; VNum b] = Ok (VNum n) -> exists f, n = NFloat f). { intros o. cbn. destruct (o _ _); cbn; try discriminate; intros X; injection X as <-; eauto. }
    cbn in Hop. destruct Hop as [<-|[<-|[<-|[<-|[]]]]]; try (now apply A in H). cbn [math_div] in H. destruct (is_zero _); [discriminate|]. now apply A in H. }
  destruct E as [f ->]. auto.
Qed.
(** Random numbers *)
Theorem C25_rand : forall draw_range, (forall k lo hi, (lo < hi)%Z -> (lo <= draw_range k lo hi < hi)%Z) ->
  forall k lo hi, (- 2 ^ 63 <= lo < 2 ^ 63)%Z -> (- 2 ^ 63 <= hi < 2 ^ 63)%Z ->
  ((lo < hi)%Z -> exists z, math_rand draw_range k [VNum (NInt lo); VNum (NInt hi)] = Ok (VNum (NInt z)) /\ (lo <= z < hi)%Z) /\
  ((hi <= lo)%Z -> math_rand draw_range k [VNum (NInt lo); VNum (NInt hi)] = Err InvalidArgument).
Proof.
  intros draw_range Hd k lo hi Hlo Hhi. cbn [math_rand as_i64]. rewrite (proj2 (Z.ltb_lt lo _)) by lia. rewrite (proj2 (Z.ltb_lt hi _)) by lia. split; intros H.
  - rewrite (proj2 (Z.leb_gt hi lo)) by lia. eauto.
  - now rewrite (proj2 (Z.leb_le hi lo)) by lia.
Qed.
Theorem C25_rand_bounds_refuted : forall draw_range k n other, (forall z, n = NInt z -> (2 ^ 63 <= z)%Z) ->
  math_rand draw_range k [VNum n; other] = Panic.
Proof. intros draw_range k [z|f] other H; [|reflexivity]. specialize (H z eq_refl). cbn [math_rand as_i64]. now rewrite (proj2 (Z.ltb_ge z _)) by lia. Qed.

(** ** The hypotheses are met. *)
Example C23_nonvacuous :
  chunk_list [VArr [VNull; VBool true; VNull]; VNum (NInt 2)] = Ok (VArr [VArr [VNull; VBool true]; VArr [VNull]]) /\
  remove_duplicates [VArr [VNum (NInt 1); VArr [VNull]; VNum (NInt 1); VArr [VNull]; VNum (NFloat (S754_zero true))]] =
    Ok (VArr [VNum (NInt 1); VArr [VNull]; VNum (NFloat (S754_zero true))]) /\
  chunk_list [VArr []; VNum (NInt 0)] = Panic /\ len [VStr [233%N]] = Ok (VNum (NInt 2)).
Proof. repeat split. Qed.
Example C24_nonvacuous :
  split [VStr (chars "a,,b"); VStr (chars ",")] = Ok (VArr [VStr (chars "a"); VStr []; VStr (chars "b")]) /\
  b64encode [VStr (chars "hi")] = Ok (VStr (chars "aGk=")) /\
  keys_sorted [(chars "a", VNull); (chars "b", VNull)] /\
  format (fun _ => chars "7") [VStr (chars "{}: {}"); VNum (NInt 7); VNull] = Ok (VStr (chars "7: null")) /\
  join (chars "{}") [[]; chars ": "; []] = chars "{}: {}" /\ no_braces (chars "null").
Proof.
  do 2 (split; [reflexivity|]). split; [cbn; intuition; match goal with H : _ = _ |- _ => injection H as <- <- end; reflexivity|].
  split; [reflexivity|]. split; [reflexivity|]. split; cbn; intuition discriminate.
Qed.
Example C25_nonvacuous : doc_num (NInt 3) /\ doc_num (NFloat (S754_finite false 6755399441055744 (-52))) /\ fits (nearest (nearest (IZR 3) + nearest (IZR 4))) /\
  math_add [VNum (NInt 3); VNum (NInt 4)] = Ok (VNum (NFloat (S754_finite false 7881299347898368 (-50)))) /\
  math_mult [VNum (NFloat (S754_finite false 9007199254740991 971)); VNum (NInt 2)] = Panic /\
  ~ fits (nearest (nearest (SF2R radix2 (S754_finite false 9007199254740991 971)) * nearest (IZR 2))).
Proof.
  assert (V : doc_num (NFloat (S754_finite false 9007199254740991 971))) by (split; reflexivity).
  split; [cbn; lia|]. split; [split; reflexivity|]. split.
  - unfold fits. rewrite !nearest_int by lia. rewrite <- plus_IZR. rewrite nearest_int by lia. rewrite <- abs_IZR. apply Rlt_le_trans with (IZR (2 ^ 53)); [apply IZR_lt; reflexivity|]. change (IZR (2 ^ 53)) with (bpow radix2 53). apply bpow_le. lia.
  - split; [vm_compute; reflexivity|]. split; [vm_compute; reflexivity|]. intros H.
    destruct (C25_mult (NFloat (S754_finite false 9007199254740991 971)) (NInt 2) V ltac:(cbn; lia) H) as (f & E & _).
    assert (P : math_mult [VNum (NFloat (S754_finite false 9007199254740991 971)); VNum (NInt 2)] = Panic) by (vm_compute; reflexivity). rewrite P in E. discriminate.
Qed.
Print Assumptions C23_chunk_list.
Print Assumptions C23_chunk_size_refuted.
Print Assumptions C23_list_elem.
Print Assumptions C23_list_elem_out_of_range.
Print Assumptions C23_index_refuted.
Print Assumptions C23_remove_duplicates.
Print Assumptions C23_contains.
Print Assumptions C23_contains_text.
Print Assumptions C23_len.
Print Assumptions C23_len_text_refuted.
Print Assumptions C24_split.
Print Assumptions C24_split_empty_refuted.
Print Assumptions C24_jsonmerge.
Print Assumptions C24_base64.
Print Assumptions C24_base64_bytes_refuted.
Print Assumptions C24_hash.
Print Assumptions C24_format.
Print Assumptions C24_format_nested_refuted.
Print Assumptions C24_format_count.
Print Assumptions C24_format_types.
Print Assumptions C25_add.
Print Assumptions C25_sub.
Print Assumptions C25_mult.
Print Assumptions C25_div.
Print Assumptions C25_exact_arguments.
Print Assumptions C25_div_by_zero.
Print Assumptions C25_overflow_refuted.
Print Assumptions C25_computed_index_refuted.
Print Assumptions C25_rand.
Print Assumptions C25_rand_bounds_refuted.
