From Verif Require Import Base Text SigModel SigSpec.
Open Scope string_scope.
Local Open Scope N_scope.

(** ** base64 *)
Lemma b64_val_chr n : n < 64 -> b64_val (b64_chr n) = Some n.
Proof.
  intros H. unfold b64_chr, b64_val.
  destruct (N.ltb_spec n 26); [|destruct (N.ltb_spec n 52); [|destruct (N.ltb_spec n 62)]].
  - rewrite N_ascii_embedding by lia.
    replace ((65 <=? n + 65) && (n + 65 <=? 90)) with true
      by (symmetry; apply andb_true_iff; split; apply N.leb_le; lia). f_equal; lia.
  - rewrite N_ascii_embedding by lia.
    replace ((65 <=? n + 71) && (n + 71 <=? 90)) with false
      by (symmetry; apply andb_false_iff; right; apply N.leb_gt; lia).
    replace ((97 <=? n + 71) && (n + 71 <=? 122)) with true
      by (symmetry; apply andb_true_iff; split; apply N.leb_le; lia). f_equal; lia.
  - rewrite N_ascii_embedding by lia.
    replace ((65 <=? n - 4) && (n - 4 <=? 90)) with false
      by (symmetry; apply andb_false_iff; left; apply N.leb_gt; lia).
    replace ((97 <=? n - 4) && (n - 4 <=? 122)) with false
      by (symmetry; apply andb_false_iff; left; apply N.leb_gt; lia).
    replace ((48 <=? n - 4) && (n - 4 <=? 57)) with true
      by (symmetry; apply andb_true_iff; split; apply N.leb_le; lia). f_equal; lia.
  - destruct (N.eqb_spec n 62); subst; [reflexivity|]. assert (n = 63) by lia; subst; reflexivity.
Qed.

Lemma string_ind3 (P : string -> Prop) :
  P "" -> (forall a, P (String a "")) -> (forall a b, P (String a (String b ""))) ->
  (forall a b c s, P s -> P (String a (String b (String c s)))) -> forall s, P s.
Proof.
  intros H0 H1 H2 H3.
  assert (H: forall n s, (String.length s <= n)%nat -> P s).
  { induction n as [n IH] using lt_wf_ind. intros [|a [|b [|c s]]] Hl; auto.
    apply H3. cbn in Hl. apply (IH (n - 3)%nat); lia. }
  intros s; apply (H (String.length s)); lia.
Qed.

Lemma div_lt_pow x k m : m <> 0 -> x < m * k -> x / m < k.
Proof. intros. apply N.div_lt_upper_bound; assumption. Qed.

Ltac byte_facts a x :=
  let H := fresh "Hb" in pose proof (N_of_ascii_lt a) as H; set (x := N_of_ascii a) in *.

Lemma recombine x k : k <> 0 -> x / k * k + x mod k = x.
Proof. intros. rewrite N.mul_comm. symmetry. apply N.div_mod. assumption. Qed.

Lemma split_div p q k : k <> 0 -> q < k -> (p * k + q) / k = p.
Proof. intros. rewrite N.add_comm, N.div_add by assumption. rewrite N.div_small by assumption. lia. Qed.
Lemma split_mod p q k : k <> 0 -> q < k -> (p * k + q) mod k = q.
Proof. intros. rewrite N.add_comm, N.mod_add by assumption. apply N.mod_small; assumption. Qed.

Lemma b64_round_trip s : b64_decode (b64_encode s) = Some s.
Proof.
  induction s as [|a|a b|a b c s IH] using string_ind3.
  - reflexivity.
  - cbn [b64_encode b64_decode]. pose proof (N_of_ascii_lt a) as Ha.
    pose proof (N.mod_lt (N_of_ascii a) 4 ltac:(lia)).
    assert (N_of_ascii a / 4 < 64) by (apply div_lt_pow; lia).
    rewrite !b64_val_chr by lia.
    rewrite <- (N.add_0_r (N_of_ascii a mod 4 * 16)).
    rewrite split_mod, split_div by lia. cbn [N.eqb].
    rewrite recombine by lia. now rewrite ascii_N_embedding.
  - cbn [b64_encode b64_decode]. pose proof (N_of_ascii_lt a) as Ha. pose proof (N_of_ascii_lt b) as Hb.
    pose proof (N.mod_lt (N_of_ascii a) 4 ltac:(lia)).
    pose proof (N.mod_lt (N_of_ascii b) 16 ltac:(lia)).
    assert (N_of_ascii a / 4 < 64) by (apply div_lt_pow; lia).
    assert (N_of_ascii b / 16 < 16) by (apply div_lt_pow; lia).
    rewrite !b64_val_chr by lia.
    rewrite <- (N.add_0_r (N_of_ascii b mod 16 * 4)).
    rewrite !split_mod, !split_div by lia. cbn [N.eqb].
    rewrite !recombine by lia. now rewrite !ascii_N_embedding.
  - cbn [b64_encode b64_decode]. rewrite IH.
    pose proof (N_of_ascii_lt a) as Ha. pose proof (N_of_ascii_lt b) as Hb. pose proof (N_of_ascii_lt c) as Hc.
    pose proof (N.mod_lt (N_of_ascii a) 4 ltac:(lia)).
    pose proof (N.mod_lt (N_of_ascii b) 16 ltac:(lia)).
    pose proof (N.mod_lt (N_of_ascii c) 64 ltac:(lia)).
    assert (N_of_ascii a / 4 < 64) by (apply div_lt_pow; lia).
    assert (N_of_ascii b / 16 < 16) by (apply div_lt_pow; lia).
    assert (N_of_ascii c / 64 < 4) by (apply div_lt_pow; lia).
    rewrite !b64_val_chr by lia.
    rewrite !split_mod, !split_div by lia.
    rewrite !recombine by lia. now rewrite !ascii_N_embedding.
Qed.

(** ** Readable header values *)
Lemma visible_spec c : visible c = true <-> 32 <= N_of_ascii c <= 126 \/ N_of_ascii c = 9.
Proof.
  unfold visible. cbv zeta. rewrite orb_true_iff, andb_true_iff, !N.leb_le, N.eqb_eq. tauto.
Qed.
Lemma header_text_visible s : header_text s <-> all_chars visible s = true.
Proof.
  unfold header_text. induction s as [|a s IH]; cbn [all_chars].
  - split; [reflexivity|]. intros _ i c H. destruct i; discriminate.
  - rewrite andb_true_iff, visible_spec, <- IH. split.
    + intros H. split; [apply (H 0%nat); reflexivity|]. intros i c Hi. apply (H (S i)). exact Hi.
    + intros [Ha H] [|i] c Hi; [cbn in Hi; congruence|]. eapply H. exact Hi.
Qed.
(** The bytes base64 uses: visible and none of the header's separators. *)
Definition plain (c : ascii) : bool :=
  visible c && negb (Ascii.eqb c ",") && negb (Ascii.eqb c "=").

Lemma b64_chr_plain n : plain (b64_chr n) = true.
Proof.
  unfold b64_chr. repeat (match goal with |- context [if ?b then _ else _] => destruct b eqn:? end).
  4,5: reflexivity.
  - apply N.ltb_lt in Heqb.
    assert (H: In n (map N.of_nat (seq 0 26))) by (apply in_map_iff; exists (N.to_nat n); split; [lia|apply in_seq; lia]).
    cbn in H. repeat (destruct H as [<-|H]; [vm_compute; reflexivity|]). destruct H.
  - apply N.ltb_lt in Heqb0. apply N.ltb_ge in Heqb.
    assert (H: In n (map N.of_nat (seq 26 26))) by (apply in_map_iff; exists (N.to_nat n); split; [lia|apply in_seq; lia]).
    cbn in H. repeat (destruct H as [<-|H]; [vm_compute; reflexivity|]). destruct H.
  - apply N.ltb_lt in Heqb1. apply N.ltb_ge in Heqb0.
    assert (H: In n (map N.of_nat (seq 52 10))) by (apply in_map_iff; exists (N.to_nat n); split; [lia|apply in_seq; lia]).
    cbn in H. repeat (destruct H as [<-|H]; [vm_compute; reflexivity|]). destruct H.
Qed.

Lemma b64_encode_plain s : all_chars plain (b64_encode s) = true.
Proof.
  induction s as [|a|a b|a b c s IH] using string_ind3; cbn [b64_encode all_chars];
    rewrite ?b64_chr_plain; auto.
Qed.

(** ** Numbers *)
Lemma parse_u64_spec s d : parse_u64 s = Some d <->
  d < two64 /\ exists digits, digits <> "" /\ (s = digits \/ s = "+" ++ digits) /\ digits_val 0 digits = Some d.
Proof.
  assert (H: forall ds, match ds with
    | EmptyString => None
    | _ => match digits_val 0 ds with
           | Some v => if v <? two64 then Some v else None | None => None end end = Some d <->
    d < two64 /\ ds <> "" /\ digits_val 0 ds = Some d).
  { intros [|a r]; [split; [discriminate|intros (_ & H & _); congruence]|].
    destruct (digits_val 0 (String a r)) as [v|] eqn:E.
    - destruct (N.ltb_spec v two64); split.
      + intros H1; inversion H1; subst. repeat split; [assumption|discriminate].
      + intros (_ & _ & H1). congruence.
      + discriminate.
      + intros (H1 & _ & H2). inversion H2; subst. lia.
    - split; [discriminate|intros (_ & _ & ?); discriminate]. }
  unfold parse_u64. rewrite H. clear H. split.
  - intros (Hd & Hne & Hv). split; [assumption|]. eexists; split; [exact Hne|]. split; [|exact Hv].
    destruct s as [|a r]; [now left|].
    destruct (Ascii.eqb_spec a "+") as [->|Ha]; [now right|].
    left. destruct a as [[] [] [] [] [] [] [] []]; try reflexivity. exfalso; apply Ha; reflexivity.
  - intros (Hd & digits & Hne & Hs & Hv). split; [assumption|].
    destruct digits as [|a r]; [congruence|].
    assert (Ha: is_digit a = true) by (cbn in Hv; destruct (is_digit a); congruence).
    assert (Hp: a <> "+"%char) by (intros ->; discriminate).
    destruct Hs as [->| ->]; [|split; [discriminate|exact Hv]].
    replace (match String a r with String "+" r => r | _ => String a r end) with (String a r);
      [split; [discriminate|exact Hv]|].
    destruct a as [[] [] [] [] [] [] [] []]; try reflexivity. exfalso; apply Hp; reflexivity.
Qed.

Lemma date_spec m d : extract_date_from_header m = Ok d <-> request_date m d.
Proof.
  unfold extract_date_from_header, request_date, has_header, hget, to_str.
  setoid_rewrite header_text_visible.
  change (lower DATE_HEADER_NAME) with "bluelink-date". change (lower "bluelink-date") with "bluelink-date".
  split.
  - destruct (lookup "bluelink-date" m) as [v|]; [|discriminate].
    destruct (all_chars visible v) eqn:Hv; [|discriminate].
    destruct (parse_u64 v) as [x|] eqn:E; [|discriminate].
    intros H; inversion H; subst. exists v. apply parse_u64_spec in E. tauto.
  - intros (s & -> & -> & H). apply parse_u64_spec in H. now rewrite H.
Qed.

Lemma request_date_fun m d d' : request_date m d -> request_date m d' -> d = d'.
Proof. rewrite <- !date_spec. congruence. Qed.

Lemma to_str_spec v s : to_str v = Some s <-> s = v /\ header_text v.
Proof.
  unfold to_str. rewrite header_text_visible. destruct (all_chars visible v); split; intros H; try discriminate.
  - inversion H; auto.
  - destruct H as [-> _]. reflexivity.
  - destruct H; discriminate.
Qed.

(** ** Signed text *)
Lemma not_date n : negb (String.eqb n (lower DATE_HEADER_NAME)) =
  (if string_dec n "bluelink-date" then false else true).
Proof.
  change (lower DATE_HEADER_NAME) with "bluelink-date".
  destruct (string_dec n "bluelink-date") as [->|H]; [reflexivity|].
  destruct (String.eqb_spec n "bluelink-date"); [congruence|reflexivity].
Qed.

Lemma collect_spec m ns t : collect_headers m ns = Ok t <->
  exists fs, Forall2 (fun n f => fst f = lower n /\ has_header m n (snd f) /\ header_text (snd f)) ns fs
    /\ t = concat_all (map (fun f : string * string => "," ++ fst f ++ "=" ++ snd f) fs).
Proof.
  revert t. induction ns as [|n ns IH]; intros t; cbn [collect_headers].
  - split.
    + intros H; inversion H; subst. exists []. split; [constructor|reflexivity].
    + intros (fs & H & ->). inversion H; reflexivity.
  - unfold custom_header, hget. split.
    + destruct (lookup (lower n) m) as [v|] eqn:El; [|discriminate].
      destruct (to_str v) as [s|] eqn:Es; [|discriminate]. cbn.
      apply to_str_spec in Es. destruct Es as [-> Hv].
      destruct (collect_headers m ns) as [r| |] eqn:Ec; try discriminate. cbn.
      intros H; inversion H; subst. destruct (proj1 (IH r) eq_refl) as (fs & Hf & ->).
      exists ((lower n, v) :: fs). split; [constructor; [repeat split; assumption|assumption]|].
      cbn. now rewrite !sapp_assoc.
    + intros (fs & H & ->). inversion H as [|? f ? fs' (H1 & H2 & H3) H4]; subst.
      destruct f as [fn fv]. cbn in *. subst fn. unfold has_header in H2. rewrite H2.
      rewrite (proj2 (to_str_spec fv fv)) by auto. cbn.
      rewrite (proj2 (IH _) (ex_intro _ fs' (conj H4 eq_refl))). cbn. now rewrite !sapp_assoc.
Qed.

Lemma message_spec kp m ns t : create_message kp m ns = Ok t <->
  exists d fs, request_date m d /\ fields m ns fs /\ t = signed_text (key_id kp) d fs.
Proof.
  unfold create_message, fields, signed_text.
  rewrite (filter_ext _ _ not_date).
  split.
  - destruct (extract_date_from_header m) as [d| |] eqn:Ed; try discriminate. cbn [map_err obind].
    destruct (collect_headers m _) as [c| |] eqn:Ec; try discriminate. cbn [obind].
    intros H; inversion H; subst. apply collect_spec in Ec. destruct Ec as (fs & Hf & ->).
    exists d, fs. apply date_spec in Ed. auto.
  - intros (d & fs & Hd & Hf & ->). apply date_spec in Hd. rewrite Hd. cbn [map_err obind].
    rewrite (proj2 (collect_spec m _ _) (ex_intro _ fs (conj Hf eq_refl))). reflexivity.
Qed.

Lemma fields_fun m ns f1 f2 : fields m ns f1 -> fields m ns f2 -> f1 = f2.
Proof.
  unfold fields. intros H1 H2. revert f2 H2. induction H1 as [|n f ns' fs (Ha & Hb & _) Hr IH]; intros f2 H2;
    inversion H2 as [|? f' ? fs' (Hc & Hd & _) Hr']; subst; [reflexivity|].
  f_equal; [|auto]. destruct f, f'; cbn in *. unfold has_header in *. congruence.
Qed.

(** ** Unpacking *)
Lemma substring0 s t : substring 0 (String.length s) (s ++ t) = s.
Proof. induction s; cbn; [destruct t; reflexivity|congruence]. Qed.

Lemma split_last s : s <> "" -> exists i c, s = i ++ String c "".
Proof.
  induction s as [|a s IH]; [congruence|]. intros _. destruct s as [|b s].
  - exists "", a. reflexivity.
  - destruct IH as (i & c & E); [discriminate|]. exists (String a i), c. cbn. now rewrite E.
Qed.

Lemma strip_spec E v (w : string) : @strip_quotes E v = Ok w <-> exists q1 q2, v = String q1 (w ++ String q2 "").
Proof.
  unfold strip_quotes. split.
  - destruct (Nat.ltb_spec (String.length v) 2) as [|Hl]; [discriminate|]. intros H.
    destruct v as [|q1 v]; [cbn in Hl; lia|]. cbn in Hl.
    destruct (split_last v) as (i & q2 & ->); [intros ->; cbn in Hl; lia|].
    exists q1, q2. f_equal. f_equal.
    assert (Hs: Ok (E:=E) (substring 0 (String.length i) (i ++ String q2 "")) = Ok w).
    { rewrite <- H. f_equal. cbn [String.length]. rewrite sapp_length. cbn [String.length].
      replace (S (String.length i + 1) - 2)%nat with (String.length i) by lia. reflexivity. }
    rewrite substring0 in Hs. congruence.
  - intros (q1 & q2 & ->). cbn [String.length]. rewrite sapp_length. cbn [String.length].
    destruct (Nat.ltb_spec (S (String.length w + 1)) 2) as [|_]; [lia|].
    replace (S (String.length w + 1) - 2)%nat with (String.length w) by lia.
    f_equal. cbn [substring]. apply substring0.
Qed.

Lemma trim_start_spec p s : exists l, all_chars p l = true /\ s = l ++ trim_start p s /\
  (forall a r, trim_start p s = String a r -> p a = false).
Proof.
  induction s as [|a s (l & Hl & He & Hr)]; cbn.
  - exists "". repeat split; discriminate.
  - destruct (p a) eqn:Ep.
    + exists (String a l). cbn. rewrite Ep, Hl. repeat split; [now rewrite <- He|assumption].
    + exists "". repeat split. intros b r H; inversion H; subst; assumption.
Qed.

Lemma trim_end_spec p s : exists r, all_chars p r = true /\ s = trim_end p s ++ r.
Proof.
  induction s as [|a s (r & Hr & He)]; cbn.
  - exists "". auto.
  - destruct (trim_end p s) eqn:E.
    + cbn in He. subst s. destruct (p a) eqn:Ep; [exists (String a r); cbn; rewrite Ep; auto|exists r; auto].
    + exists r. split; [assumption|]. cbn in *. now rewrite <- He.
Qed.

Lemma trim_start_blank p l s : all_chars p l = true -> trim_start p (l ++ s) = trim_start p s.
Proof.
  induction l; cbn; [reflexivity|]. intros H. apply andb_true_iff in H. destruct H as [-> H]. auto.
Qed.
Lemma trim_end_blank p r : all_chars p r = true -> trim_end p r = "".
Proof.
  induction r; cbn; [reflexivity|]. intros H. apply andb_true_iff in H. destruct H as [-> H].
  now rewrite IHr.
Qed.
Lemma trim_end_app p s r : all_chars p r = true -> trim_end p (s ++ r) = trim_end p s.
Proof.
  intros H. induction s; cbn; [now apply trim_end_blank|]. now rewrite IHs.
Qed.

Lemma trim_name_spec n name : name <> "" -> all_chars (fun c => negb (is_ws c)) name = true ->
  trim is_ws n = name <-> exists l r, blank l /\ blank r /\ n = l ++ name ++ r.
Proof.
  intros Hne Hnw. unfold trim. split.
  - intros H. destruct (trim_start_spec is_ws n) as (l & Hl & He & _).
    destruct (trim_end_spec is_ws (trim_start is_ws n)) as (r & Hr & He2).
    exists l, r. rewrite H in He2. repeat split; [exact Hl|exact Hr|]. rewrite He, He2 at 1. reflexivity.
  - intros (l & r & Hl & Hr & ->). rewrite trim_start_blank by exact Hl.
    destruct name as [|a name]; [congruence|]. cbn in Hnw. apply andb_true_iff in Hnw. destruct Hnw as [Ha Hn].
    cbn [append trim_start]. apply negb_true_iff in Ha. rewrite Ha.
    change (String a (name ++ r)) with (String a name ++ r).
    rewrite trim_end_app by exact Hr.
    clear - Ha Hn. revert a Ha; induction name as [|b name IH]; intros a Ha.
    + cbn. now rewrite Ha.
    + cbn in Hn. apply andb_true_iff in Hn. destruct Hn as [Hb Hn]. apply negb_true_iff in Hb.
      specialize (IH Hn b Hb). cbn [trim_end] in *. now rewrite IH.
Qed.

Lemma blank_no c s : is_ws c = false -> blank s -> has_char c s = false.
Proof. intros Hc H. now apply (has_char_all is_ws). Qed.

Lemma split_eq2 s n v : split_on "=" s = [n; v] <->
  s = n ++ "=" ++ v /\ has_char "=" n = false /\ has_char "=" v = false.
Proof.
  split.
  - intros H. pose proof (join_split_on "=" s) as J. pose proof (split_on_pieces "=" s) as P.
    rewrite H in J, P. assert (P1 := Forall_inv P). assert (P2 := Forall_inv (Forall_inv_tail P)).
    split; [symmetry; exact J|]. auto.
  - intros (-> & H1 & H2). change ("=" ++ v) with (String "=" v). rewrite split_on_sep by assumption.
    now rewrite split_on_none.
Qed.

Lemma split3 s a b c : split_on "," s = [a; b; c] <->
  s = a ++ "," ++ b ++ "," ++ c /\ has_char "," a = false /\ has_char "," b = false /\ has_char "," c = false.
Proof.
  split.
  - intros H. pose proof (join_split_on "," s) as J. pose proof (split_on_pieces "," s) as P.
    rewrite H in J, P. assert (P1 := Forall_inv P). assert (P2 := Forall_inv (Forall_inv_tail P)).
    assert (P3 := Forall_inv (Forall_inv_tail (Forall_inv_tail P))).
    split; [symmetry; exact J|]. auto.
  - intros (-> & H1 & H2 & H3).
    change ("," ++ b ++ "," ++ c) with (String "," (b ++ String "," c)).
    rewrite !split_on_sep by assumption. now rewrite split_on_none.
Qed.

(** One part of the header, without commas in it. *)
Lemma part_spec name p w : name <> "" ->
  all_chars (fun c => negb (is_ws c) && negb (Ascii.eqb c ",") && negb (Ascii.eqb c "=")) name = true ->
  (part name w p <-> exists n v, split_on "=" p = [n; v] /\ has_char "," p = false /\ trim is_ws n = name
     /\ exists q1 q2, v = String q1 (w ++ String q2 "")).
Proof.
  intros Hne Hc.
  assert (Hw: all_chars (fun c => negb (is_ws c)) name = true).
  { eapply all_chars_impl; [|exact Hc]. intros a H. apply andb_true_iff in H. destruct H as [H _].
    apply andb_true_iff in H. tauto. }
  assert (Hcm: has_char "," name = false).
  { refine (has_char_all _ _ _ _ Hc). reflexivity. }
  assert (Heq: has_char "=" name = false).
  { refine (has_char_all _ _ _ _ Hc). reflexivity. }
  split.
  - intros (l & r & q1 & q2 & Hl & Hr & -> & H1 & H2).
    exists (l ++ name ++ r), (String q1 (w ++ String q2 "")). repeat split.
    + apply split_eq2. rewrite !sapp_assoc. split; [reflexivity|]. rewrite !has_char_app.
      rewrite (blank_no "=" l), (blank_no "=" r), Heq by (assumption || reflexivity). auto.
    + rewrite !has_char_app. rewrite (blank_no "," l), (blank_no "," r), Hcm by (assumption || reflexivity).
      cbn [orb]. rewrite H1. reflexivity.
    + apply trim_name_spec; auto. eauto 6.
    + eauto.
  - intros (n & v & Hs & Hcp & Ht & q1 & q2 & ->). apply split_eq2 in Hs. destruct Hs as (-> & Hn & Hv).
    apply trim_name_spec in Ht; [|assumption|assumption]. destruct Ht as (l & r & Hl & Hr & ->).
    exists l, r, q1, q2. repeat split; auto.
    + now rewrite !sapp_assoc.
    + rewrite has_char_app in Hcp. apply orb_false_iff in Hcp. destruct Hcp as [_ Hcp].
      rewrite has_char_app in Hcp. apply orb_false_iff in Hcp. tauto.
Qed.

Lemma part_no_comma name p w : name <> "" ->
  all_chars (fun c => negb (is_ws c) && negb (Ascii.eqb c ",") && negb (Ascii.eqb c "=")) name = true ->
  part name w p -> has_char "," p = false.
Proof. intros H1 H2 H. apply part_spec in H; auto. destruct H as (n & v & _ & H & _). exact H. Qed.

Lemma unpack_key_spec p w : has_char "," p = false -> (unpack_key_id p = Ok w <-> part "keyId" w p).
Proof.
  intros Hp. rewrite part_spec by (discriminate || reflexivity). unfold unpack_key_id. split.
  - destruct (split_on "=" p) as [|n [|v [|]]] eqn:E; try discriminate.
    destruct (String.eqb_spec (trim is_ws n) "keyId"); [|discriminate].
    intros H. apply strip_spec in H. eauto 8.
  - intros (n & v & -> & _ & -> & H). cbn. now apply strip_spec.
Qed.
Lemma unpack_sig_spec p w : has_char "," p = false -> (unpack_signature_value p = Ok w <-> part "signature" w p).
Proof.
  intros Hp. rewrite part_spec by (discriminate || reflexivity). unfold unpack_signature_value. split.
  - destruct (split_on "=" p) as [|n [|v [|]]] eqn:E; try discriminate.
    destruct (String.eqb_spec (trim is_ws n) "signature"); [|discriminate].
    intros H. apply strip_spec in H. eauto 8.
  - intros (n & v & -> & _ & -> & H). cbn. now apply strip_spec.
Qed.
Lemma unpack_headers_spec p ns : has_char "," p = false -> (unpack_headers p = Ok ns <->
  part "headers" (join " " ns) p /\ ns <> [] /\ Forall (fun n => has_char " " n = false) ns).
Proof.
  intros Hp. rewrite part_spec by (discriminate || reflexivity). unfold unpack_headers. split.
  - destruct (split_on "=" p) as [|n [|v [|]]] eqn:E; try discriminate.
    destruct (String.eqb_spec (trim is_ws n) "headers"); [|discriminate].
    destruct (strip_quotes v) as [w| |] eqn:Es; try discriminate.
    intros H; inversion H; subst. apply strip_spec in Es. rewrite join_split_on.
    split; [eauto 8|]. split; [apply split_on_nil|apply split_on_pieces].
  - intros ((n & v & -> & _ & -> & H) & Hne & Hf). cbn. apply (strip_spec sig_error) in H. rewrite H. cbn.
    f_equal. now apply split_on_join.
Qed.

Lemma unpack_spec h k ns sg :
  unpack_signature h = Ok {| sp_key_id := k; sp_signature := sg; sp_headers := ns |} <-> presents h k ns sg.
Proof.
  unfold unpack_signature, presents. split.
  - destruct (split_on "," h) as [|p0 [|p1 [|p2 [|]]]] eqn:E; try discriminate.
    apply split3 in E. destruct E as (-> & C0 & C1 & C2).
    destruct (unpack_key_id p0) as [k'| |] eqn:E0; try discriminate. cbn [obind].
    destruct (unpack_headers p1) as [n'| |] eqn:E1; try discriminate. cbn [obind].
    destruct (unpack_signature_value p2) as [s'| |] eqn:E2; try discriminate. cbn [obind].
    intros H; inversion H; subst.
    apply unpack_key_spec in E0; auto. apply unpack_headers_spec in E1; auto.
    apply unpack_sig_spec in E2; auto. exists p0, p1, p2. tauto.
  - intros (p0 & p1 & p2 & -> & H0 & H1 & H2 & Hne & Hf).
    assert (C0: has_char "," p0 = false) by (eapply part_no_comma; [| |exact H0]; [discriminate|reflexivity]).
    assert (C1: has_char "," p1 = false) by (eapply part_no_comma; [| |exact H1]; [discriminate|reflexivity]).
    assert (C2: has_char "," p2 = false) by (eapply part_no_comma; [| |exact H2]; [discriminate|reflexivity]).
    rewrite (proj2 (split3 _ p0 p1 p2)) by auto.
    rewrite (proj2 (unpack_key_spec p0 k C0) H0). cbn [obind].
    rewrite (proj2 (unpack_headers_spec p1 ns C1)) by auto. cbn [obind].
    rewrite (proj2 (unpack_sig_spec p2 sg C2) H2). reflexivity.
Qed.

Lemma presents_fun h k ns sg k' ns' sg' : presents h k ns sg -> presents h k' ns' sg' ->
  k = k' /\ ns = ns' /\ sg = sg'.
Proof. rewrite <- !unpack_spec. intros H1 H2. rewrite H1 in H2. inversion H2; auto. Qed.

(** ** Verification *)
Section V.
Variable hmac : string -> string -> string.

Lemma verify_message_spec kp t sg : verify_message hmac kp t sg =
  (match b64_decode sg with
   | Some c => if String.eqb (hmac (secret_key kp) t) c then Ok tt else Err (InvalidSignature "Invalid signature")
   | None => Err (InvalidSignature "Invalid signature") end).
Proof. unfold verify_message. destruct (b64_decode sg); reflexivity. Qed.

(** The date check, after everything else was accepted. *)
Definition date_check (checked : bool) (date now skew : N) : outcome sig_error unit :=
  let! hi := add64 checked date skew in
  if hi <? now then Err (InvalidSignature "Signature has expired")
  else let! lo := sub64 checked date skew in
       if now <? lo then Err (InvalidSignature "Signature has expired") else Ok tt.

Lemma authentic_check pairs m k kp ns d fs checked now sk :
  authentic hmac pairs m k kp ns d fs ->
  verify_signature hmac checked pairs m now sk = date_check checked d now (skew_of sk).
Proof.
  intros (h & sg & Hh & Hv & Hp & Hk & Hd & Hf & Hmac).
  unfold verify_signature. unfold hget. change (lower SIGNATURE_HEADER_NAME) with (lower "bluelink-signature-v1").
  unfold has_header in Hh. rewrite Hh. rewrite (proj2 (to_str_spec h h)) by auto.
  rewrite (proj2 (unpack_spec h k ns sg) Hp). cbn [obind sp_key_id sp_headers sp_signature]. rewrite Hk.
  rewrite (proj2 (message_spec kp m ns (signed_text (key_id kp) d fs))) by eauto. cbn [map_err obind].
  unfold verify_message. rewrite Hmac, String.eqb_refl. cbn [obind].
  apply date_spec in Hd. rewrite Hd. cbn [obind]. reflexivity.
Qed.

Lemma verify_ok_authentic checked pairs m now sk :
  verify_signature hmac checked pairs m now sk = Ok tt ->
  exists k kp ns d fs, authentic hmac pairs m k kp ns d fs /\ date_check checked d now (skew_of sk) = Ok tt.
Proof.
  intros H. cut (exists k kp ns d fs, authentic hmac pairs m k kp ns d fs).
  { intros (k & kp & ns & d & fs & A). exists k, kp, ns, d, fs. split; [exact A|].
    rewrite <- H. symmetry. eapply authentic_check; eauto. }
  unfold verify_signature, hget in H. change (lower SIGNATURE_HEADER_NAME) with (lower "bluelink-signature-v1") in H.
  destruct (lookup (lower "bluelink-signature-v1") m) as [h|] eqn:Eh; [|discriminate].
  destruct (to_str h) as [h'|] eqn:Et; [|discriminate]. apply to_str_spec in Et. destruct Et as [-> Hv].
  destruct (unpack_signature h) as [[k sg ns]| |] eqn:Eu; try discriminate. apply unpack_spec in Eu.
  cbn [obind sp_key_id sp_headers sp_signature] in H.
  destruct (lookup k pairs) as [kp|] eqn:Ek; [|discriminate].
  destruct (create_message kp m ns) as [t| |] eqn:Em; try discriminate. cbn [map_err obind] in H.
  apply message_spec in Em. destruct Em as (d & fs & Hd & Hf & ->).
  unfold verify_message in H. destruct (b64_decode sg) as [c|] eqn:Eb; [|discriminate].
  destruct (String.eqb_spec (hmac (secret_key kp) (signed_text (key_id kp) d fs)) c) as [<-|]; [|discriminate].
  exists k, kp, ns, d, fs, h, sg. repeat (split; [assumption|]). exact Eb.
Qed.

Lemma date_check_in_range checked d now s : s <= d -> d + s < two64 ->
  date_check checked d now s =
    if (d - s <=? now) && (now <=? d + s) then Ok tt else Err (InvalidSignature "Signature has expired").
Proof.
  intros H1 H2. unfold date_check, add64, sub64.
  rewrite (proj2 (N.ltb_lt _ _) H2). cbn [obind]. rewrite (proj2 (N.leb_le _ _) H1).
  destruct (N.ltb_spec (d + s) now).
  - rewrite (proj2 (N.leb_gt now (d + s))) by assumption. now rewrite andb_false_r.
  - cbn [obind]. rewrite (proj2 (N.leb_le now (d + s))) by assumption. rewrite andb_true_r.
    destruct (N.ltb_spec now (d - s)).
    + now rewrite (proj2 (N.leb_gt _ _)).
    + now rewrite (proj2 (N.leb_le _ _)).
Qed.

(** Where the window leaves the range of u64, no request is accepted. *)
Lemma date_check_low checked d now s : d < s -> d + s < two64 -> d < two64 -> now < two64 ->
  date_check checked d now s = Ok tt <-> checked = false /\ d + two64 - s <= now /\ now <= d + s.
Proof.
  intros H1 H2 H3 H4. unfold date_check, add64, sub64.
  rewrite (proj2 (N.ltb_lt _ _) H2). cbn [obind]. rewrite (proj2 (N.leb_gt _ _) H1).
  destruct (N.ltb_spec (d + s) now); [split; [discriminate|intros (_ & _ & ?); lia]|].
  destruct checked; [split; [discriminate|intros (? & _); discriminate]|]. cbn [obind].
  rewrite N.mod_small by lia. destruct (N.ltb_spec now (d + two64 - s)); split; try discriminate; auto.
  intros (_ & ? & _). lia.
Qed.

(** ** Round trip *)
Lemma name_byte_plain c : name_byte c = true ->
  (visible c = true) /\ c <> ","%char /\ c <> "="%char /\ c <> " "%char.
Proof. destruct c as [[] [] [] [] [] [] [] []]; vm_compute; intros; try discriminate; repeat split; discriminate. Qed.

Lemma name_plain s : all_chars name_byte s = true ->
  has_char "," s = false /\ has_char "=" s = false /\ has_char " " s = false /\ all_chars visible s = true.
Proof.
  intros H. repeat split; try (refine (has_char_all name_byte _ _ _ H); reflexivity).
  eapply all_chars_impl; [|exact H]. intros a Ha. now apply name_byte_plain.
Qed.

Lemma well_formed_name m n v : well_formed m -> lookup (lower n) m = Some v ->
  all_chars name_byte (lower n) = true.
Proof.
  intros W H. apply lookup_In in H. eapply Forall_forall in W; [|exact H]. cbn in W. tauto.
Qed.

Lemma join_all p sep l : all_chars p sep = true -> Forall (fun s => all_chars p s = true) l ->
  all_chars p (join sep l) = true.
Proof.
  intros Hs. induction l as [|x [|y l] IH]; intros H; inversion H; subst; [reflexivity|assumption|].
  change (join sep (x :: y :: l)) with (x ++ sep ++ join sep (y :: l)).
  rewrite !all_chars_app, Hs, IH by assumption. now rewrite H2.
Qed.

Lemma join_no c sep l : has_char c sep = false -> Forall (fun s => has_char c s = false) l ->
  has_char c (join sep l) = false.
Proof.
  rewrite has_char_false. intros Hs H. apply has_char_false. apply join_all; [assumption|].
  eapply Forall_impl; [|exact H]. intros a. now rewrite has_char_false.
Qed.

Lemma filter_map_lower ns :
  (forall n, In n ns -> lower n = "bluelink-date" -> n = "bluelink-date") ->
  filter (fun n => if string_dec n "bluelink-date" then false else true) (map lower ns) =
  map lower (filter (fun n => if string_dec n "bluelink-date" then false else true) ns).
Proof.
  induction ns as [|n ns IH]; intros H; [reflexivity|]. cbn.
  rewrite IH by (intros; apply H; [now right|assumption]).
  destruct (string_dec (lower n) "bluelink-date") as [E|E].
  - rewrite (H n (or_introl eq_refl) E). cbn. reflexivity.
  - destruct (string_dec n "bluelink-date") as [->|]; [exfalso; apply E; reflexivity|reflexivity].
Qed.

Lemma fields_lower m ns fs :
  (forall n, In n ns -> lower n = "bluelink-date" -> n = "bluelink-date") ->
  fields m ns fs -> fields m ("bluelink-date" :: map lower ns) fs.
Proof.
  intros Hd H. unfold fields in *. cbn [filter]. destruct (string_dec "bluelink-date" "bluelink-date"); [|congruence].
  rewrite filter_map_lower by assumption. revert H. generalize (filter (fun n => if string_dec n "bluelink-date" then false else true) ns).
  intros l H. induction H as [|n f l fs (H1 & H2 & H3)]; cbn; constructor; auto.
  unfold has_header in *. rewrite lower_idem. auto.
Qed.

Lemma fields_hset m ns fs x v :
  (forall n, In n ns -> lower n <> lower x) -> fields m ns fs -> fields (hset x v m) ns fs.
Proof.
  intros Hn H. unfold fields in *.
  assert (Hn': forall n, In n (filter (fun n => if string_dec n "bluelink-date" then false else true) ns) -> lower n <> lower x)
    by (intros n Hi; apply filter_In in Hi; apply Hn; tauto).
  revert Hn' H. generalize (filter (fun n => if string_dec n "bluelink-date" then false else true) ns). intros l Hl H.
  induction H as [|n f l fs (H1 & H2 & H3)]; constructor.
  - repeat split; auto. unfold has_header, hset in *. rewrite lookup_insert_ne; auto. apply Hl; now left.
  - apply IHForall2. intros; apply Hl; now right.
Qed.

Lemma date_hset m x v d : lower x <> "bluelink-date" -> request_date m d -> request_date (hset x v m) d.
Proof.
  intros Hx (s & H1 & H2). exists s. split; [|exact H2]. unfold has_header, hset in *.
  rewrite lookup_insert_ne; auto.
Qed.

Lemma in_names_found m ns fs n : fields m ns fs -> In n ns -> n <> "bluelink-date" ->
  exists v, lookup (lower n) m = Some v.
Proof.
  unfold fields. intros H Hi Hn.
  assert (Hi': In n (filter (fun n => if string_dec n "bluelink-date" then false else true) ns)).
  { apply filter_In. split; [assumption|]. destruct (string_dec n "bluelink-date"); [congruence|reflexivity]. }
  revert Hi'. induction H as [|n' f l fs' (H1 & H2 & H3)]; [intros []|].
  intros [->|Hi']; [|auto]. exists (snd f). exact H2.
Qed.

Lemma create_spec kp m ns now v m' : create_signature_header hmac kp m ns now = Ok (v, m') <->
  m' = dated m now /\ exists d fs, request_date m' d /\ fields m' ns fs /\
  v = "keyId=""" ++ key_id kp ++ """, headers=""" ++ join " " ("bluelink-date" :: map lower ns)
      ++ """, signature=""" ++ b64_encode (hmac (secret_key kp) (signed_text (key_id kp) d fs)) ++ """".
Proof.
  unfold create_signature_header, hget, hset. change (lower DATE_HEADER_NAME) with "bluelink-date".
  fold (dated m now).
  replace (match lookup "bluelink-date" m with
           | Some _ => m | None => insert "bluelink-date" (dec now) m end) with (dated m now) by reflexivity.
  split.
  - destruct (create_message kp (dated m now) ns) as [t| |] eqn:Em; try discriminate. cbn [obind].
    intros H; inversion H. split; [reflexivity|].
    apply message_spec in Em. destruct Em as (d & fs & Hd & Hf & ->). exists d, fs. repeat split; assumption.
  - intros (-> & d & fs & Hd & Hf & ->).
    rewrite (proj2 (message_spec kp (dated m now) ns (signed_text (key_id kp) d fs))) by eauto. reflexivity.
Qed.

Lemma well_formed_dated m now : well_formed m -> well_formed (dated m now).
Proof.
  intros W. unfold dated. destruct (lookup "bluelink-date" m); [assumption|].
  unfold well_formed in *. apply Forall_forall. intros [k w] Hi. rewrite Forall_forall in W.
  assert (Hk: In k (keys (insert "bluelink-date" (dec now) m))) by (change k with (fst (k, w)); now apply in_map).
  apply keys_insert in Hk. cbn [fst]. destruct Hk as [->|Hk]; [split; [discriminate|reflexivity]|].
  apply in_map_iff in Hk. destruct Hk as ([k' w'] & <- & Hi'). now apply (W (k', w')).
Qed.

Lemma no_app3 c a b d : has_char c a = false -> has_char c b = false -> has_char c d = false ->
  has_char c (a ++ b ++ d) = false.
Proof. rewrite !has_char_app. now intros -> -> ->. Qed.

Lemma created_presents kp ns sg : safe_key (key_id kp) ->
  all_chars plain sg = true ->
  Forall (fun n => has_char "," n = false /\ has_char "=" n = false /\ has_char " " n = false) ns -> ns <> [] ->
  presents ("keyId=""" ++ key_id kp ++ """, headers=""" ++ join " " ns ++ """, signature=""" ++ sg ++ """")
    (key_id kp) ns sg.
Proof.
  intros (Hk1 & Hk2 & Hk3) Hs Hn Hne.
  assert (Hs1: has_char "," sg = false) by (refine (has_char_all plain _ _ _ Hs); reflexivity).
  assert (Hs2: has_char "=" sg = false) by (refine (has_char_all plain _ _ _ Hs); reflexivity).
  assert (J1: has_char "," (join " " ns) = false).
  { apply join_no; [reflexivity|]. eapply Forall_impl; [|exact Hn]. cbn; tauto. }
  assert (J2: has_char "=" (join " " ns) = false).
  { apply join_no; [reflexivity|]. eapply Forall_impl; [|exact Hn]. cbn; tauto. }
  exists ("keyId=" ++ String """" (key_id kp ++ """")), (" headers=" ++ String """" (join " " ns ++ """")),
    (" signature=" ++ String """" (sg ++ """")).
  split; [cbn; rewrite !sapp_assoc; cbn; rewrite ?sapp_assoc; reflexivity|].
  split; [|split; [|split; [|split]]].
  - exists "", "", """"%char, """"%char. repeat (split; [reflexivity|]).
    rewrite !has_char_cons, !has_char_app. rewrite Hk2, Hk3. split; reflexivity.
  - exists " ", "", """"%char, """"%char. repeat (split; [reflexivity|]).
    rewrite !has_char_cons, !has_char_app. rewrite J1, J2. split; reflexivity.
  - exists " ", "", """"%char, """"%char. repeat (split; [reflexivity|]).
    rewrite !has_char_cons, !has_char_app. rewrite Hs1, Hs2. split; reflexivity.
  - assumption.
  - eapply Forall_impl; [|exact Hn]. cbn; tauto.
Qed.

Lemma created_visible kp ns sg : safe_key (key_id kp) -> all_chars plain sg = true ->
  Forall (fun n => all_chars visible n = true) ns ->
  header_text ("keyId=""" ++ key_id kp ++ """, headers=""" ++ join " " ns ++ """, signature=""" ++ sg ++ """").
Proof.
  intros (Hk1 & _) Hs Hn. apply header_text_visible in Hk1. apply header_text_visible.
  rewrite !all_chars_app. rewrite Hk1. rewrite (join_all visible " " ns) by (reflexivity || assumption).
  rewrite (all_chars_impl plain visible sg); [reflexivity| |exact Hs].
  intros a H. unfold plain in H. apply andb_true_iff in H. destruct H as [H _]. apply andb_true_iff in H. tauto.
Qed.

Lemma created_authentic pairs kp m ns now v m' :
  well_formed m -> safe_key (key_id kp) ->
  (forall n, In n ns -> lower n <> "bluelink-signature-v1") ->
  (forall n, In n ns -> lower n = "bluelink-date" -> n = "bluelink-date") ->
  lookup (key_id kp) pairs = Some kp ->
  create_signature_header hmac kp m ns now = Ok (v, m') ->
  exists d fs, request_date m' d /\
    authentic hmac pairs (hset "Bluelink-Signature-V1" v m') (key_id kp) kp ("bluelink-date" :: map lower ns) d fs.
Proof.
  intros W Hk Hns Hd Hp H. apply create_spec in H. destruct H as (Em & d & fs & Hda & Hf & Hv).
  pose proof (well_formed_dated m now W) as W'. rewrite <- Em in W'.
  set (sg := b64_encode (hmac (secret_key kp) (signed_text (key_id kp) d fs))) in *.
  assert (Hsg: all_chars plain sg = true) by apply b64_encode_plain.
  assert (HN: Forall (fun n => all_chars name_byte n = true) ("bluelink-date" :: map lower ns)).
  { constructor; [reflexivity|]. apply Forall_forall. intros x Hx. apply in_map_iff in Hx.
    destruct Hx as (n & <- & Hi). destruct (string_dec n "bluelink-date") as [->|Hne]; [reflexivity|].
    destruct (in_names_found _ _ _ _ Hf Hi Hne) as (w & Hw). eapply well_formed_name; eauto. }
  exists d, fs. split; [assumption|]. exists v, sg.
  assert (L: lower "Bluelink-Signature-V1" = "bluelink-signature-v1") by reflexivity.
  split; [unfold has_header, hset; rewrite L; apply lookup_insert_eq|].
  split; [rewrite Hv; apply created_visible; auto; eapply Forall_impl; [|exact HN]; intros a Ha; now apply name_plain in Ha|].
  split; [rewrite Hv; apply created_presents; auto; [|discriminate]|].
  { eapply Forall_impl; [|exact HN]. intros a Ha. apply name_plain in Ha. tauto. }
  split; [assumption|].
  split; [apply date_hset; [discriminate|assumption]|].
  split.
  - apply fields_hset.
    + intros n [<-|Hi]; [discriminate|]. apply in_map_iff in Hi. destruct Hi as (n' & <- & Hi).
      rewrite lower_idem. apply Hns. assumption.
    + apply fields_lower; assumption.
  - apply b64_round_trip.
Qed.

Lemma round_trip checked pairs kp m ns now v m' now2 sk d :
  well_formed m -> safe_key (key_id kp) ->
  (forall n, In n ns -> lower n <> "bluelink-signature-v1") ->
  (forall n, In n ns -> lower n = "bluelink-date" -> n = "bluelink-date") ->
  lookup (key_id kp) pairs = Some kp ->
  create_signature_header hmac kp m ns now = Ok (v, m') ->
  request_date m' d -> skew_of sk <= d -> d + skew_of sk < two64 ->
  d - skew_of sk <= now2 <= d + skew_of sk ->
  verify_signature hmac checked pairs (hset "Bluelink-Signature-V1" v m') now2 sk = Ok tt.
Proof.
  intros W Hk Hns Hd Hp Hc Hda H1 H2 [H3 H4].
  destruct (created_authentic pairs kp m ns now v m' W Hk Hns Hd Hp Hc) as (d' & fs & Hda' & A).
  assert (d' = d) by (eapply request_date_fun; eauto); subst d'.
  rewrite (authentic_check _ _ _ _ _ _ _ checked now2 sk A).
  rewrite date_check_in_range by assumption.
  rewrite (proj2 (N.leb_le _ _) H3), (proj2 (N.leb_le _ _) H4). reflexivity.
Qed.

Lemma digits_val_bound_dec n : n < two64 -> parse_u64 (dec n) = Some n.
Proof.
  intros H. apply parse_u64_spec. split; [assumption|]. exists (dec n). split; [apply dec_nonempty|].
  split; [now left|apply dec_val].
Qed.

Lemma digit_visible c : is_digit c = true -> visible c = true.
Proof. destruct c as [[] [] [] [] [] [] [] []]; vm_compute; auto. Qed.

(** A signer that sets no date signs its own clock's time. *)
Lemma created_date m now : now < two64 -> lookup "bluelink-date" m = None -> request_date (dated m now) now.
Proof.
  intros Hn E. unfold dated. rewrite E. exists (dec now).
  split; [unfold has_header; change (lower "bluelink-date") with "bluelink-date"; apply lookup_insert_eq|].
  split; [apply header_text_visible; eapply all_chars_impl; [apply digit_visible|apply dec_digits]|].
  apply parse_u64_spec. now apply digits_val_bound_dec.
Qed.

(** When signing succeeds: the date readable and every listed header present and printable. *)
Lemma create_total kp m ns now : now < two64 ->
  (forall s, has_header m "bluelink-date" s -> exists d, request_date m d) ->
  (forall n, In n ns -> n <> "bluelink-date" -> exists v, has_header (dated m now) n v /\ header_text v) ->
  exists v m', create_signature_header hmac kp m ns now = Ok (v, m').
Proof.
  intros Hn Hd Hns.
  assert (HD: exists d, request_date (dated m now) d).
  { destruct (lookup "bluelink-date" m) as [s|] eqn:E.
    - unfold dated. rewrite E. eapply Hd. exact E.
    - exists now. apply created_date; auto. }
  destruct HD as (d & HD).
  assert (HF: exists fs, fields (dated m now) ns fs).
  { unfold fields. clear - Hns. induction ns as [|n ns IH]; cbn [filter]; [exists []; constructor|].
    destruct IH as (fs & H). { intros x Hx. apply Hns. now right. }
    destruct (string_dec n "bluelink-date"); [exists fs; exact H|].
    destruct (Hns n (or_introl eq_refl) n0) as (v & H1 & H2).
    exists ((lower n, v) :: fs). constructor; auto. }
  destruct HF as (fs & HF).
  eexists _, (dated m now). apply create_spec. split; [reflexivity|]. exists d, fs.
  split; [exact HD|]. split; [exact HF|]. reflexivity.
Qed.

(** ** What the signed text determines *)
Lemma dec_prefix d1 d2 r1 r2 :
  (r1 = "" \/ exists t, r1 = "," ++ t) -> (r2 = "" \/ exists t, r2 = "," ++ t) ->
  dec d1 ++ r1 = dec d2 ++ r2 -> d1 = d2 /\ r1 = r2.
Proof.
  intros H1 H2 H.
  assert (G: forall a b, all_chars is_digit a = true -> all_chars is_digit b = true ->
    a ++ r1 = b ++ r2 -> a = b).
  { induction a as [|x a IH]; intros [|y b] Ha Hb E; cbn in *; auto.
    - destruct H1 as [->|(t & ->)]; [discriminate|]. cbn in E. inversion E; subst. discriminate.
    - destruct H2 as [->|(t & ->)]; [discriminate|]. cbn in E. inversion E; subst. discriminate.
    - apply andb_true_iff in Ha, Hb. inversion E; subst. f_equal. apply IH; tauto. }
  assert (E: dec d1 = dec d2) by (apply G; auto using dec_digits).
  split; [now apply dec_inj|]. rewrite E in H. now apply sapp_inv_head in H.
Qed.

Lemma first_comma a b r1 r2 : has_char "," a = false -> has_char "," b = false ->
  a ++ "," ++ r1 = b ++ "," ++ r2 -> a = b /\ r1 = r2.
Proof.
  revert b. induction a as [|x a IH]; intros [|y b] Ha Hb E; cbn in *.
  - inversion E; auto.
  - inversion E; subst. rewrite has_char_cons in Hb. discriminate.
  - inversion E; subst. rewrite has_char_cons in Ha. discriminate.
  - rewrite has_char_cons in *. apply orb_false_iff in Ha, Hb. inversion E; subst.
    destruct (IH b) as [-> ->]; tauto.
Qed.

Definition ftext (fs : list (string * string)) : string :=
  concat_all (map (fun f => "," ++ fst f ++ "=" ++ snd f) fs).

Lemma ftext_shape fs : ftext fs = "" \/ exists t, ftext fs = "," ++ t.
Proof. destruct fs as [|f fs]; [now left|right]. cbn. eauto. Qed.

Lemma text_key_date k1 k2 d1 d2 f1 f2 : has_char "," k1 = false -> has_char "," k2 = false ->
  signed_text k1 d1 f1 = signed_text k2 d2 f2 -> k1 = k2 /\ d1 = d2 /\ ftext f1 = ftext f2.
Proof.
  intros H1 H2 H. unfold signed_text in H. fold (ftext f1) in H. fold (ftext f2) in H.
  change (",bluelink-date=" ++ dec d1 ++ ftext f1) with ("," ++ "bluelink-date=" ++ dec d1 ++ ftext f1) in H.
  change (",bluelink-date=" ++ dec d2 ++ ftext f2) with ("," ++ "bluelink-date=" ++ dec d2 ++ ftext f2) in H.
  apply first_comma in H; auto. destruct H as [-> H]. split; [reflexivity|].
  apply sapp_inv_head in H. apply dec_prefix in H; auto using ftext_shape.
Qed.

(** With the key id known, no restriction on its bytes is needed. *)
Lemma text_date k d1 d2 f1 f2 : signed_text k d1 f1 = signed_text k d2 f2 -> d1 = d2 /\ ftext f1 = ftext f2.
Proof.
  intros H. unfold signed_text in H. fold (ftext f1) in H. fold (ftext f2) in H.
  apply sapp_inv_head, sapp_inv_head in H. apply dec_prefix in H; auto using ftext_shape.
Qed.

Lemma first_eq a b r1 r2 : has_char "=" a = false -> has_char "=" b = false ->
  a ++ "=" ++ r1 = b ++ "=" ++ r2 -> a = b /\ r1 = r2.
Proof.
  revert b. induction a as [|x a IH]; intros [|y b] Ha Hb E; cbn in *.
  - inversion E; auto.
  - inversion E; subst. rewrite has_char_cons in Hb. discriminate.
  - inversion E; subst. rewrite has_char_cons in Ha. discriminate.
  - rewrite has_char_cons in *. apply orb_false_iff in Ha, Hb. inversion E; subst.
    destruct (IH b) as [-> ->]; tauto.
Qed.

Lemma value_prefix v1 v2 r1 r2 : has_char "," v1 = false -> has_char "," v2 = false ->
  (r1 = "" \/ exists t, r1 = "," ++ t) -> (r2 = "" \/ exists t, r2 = "," ++ t) ->
  v1 ++ r1 = v2 ++ r2 -> v1 = v2 /\ r1 = r2.
Proof.
  intros H1 H2 R1 R2. revert v2 H2. induction v1 as [|x v1 IH]; intros [|y v2] H2 E; cbn in *; auto.
  - destruct R1 as [->|(t & ->)]; [discriminate|]. cbn in E. inversion E; subst.
    rewrite has_char_cons in H2. discriminate.
  - destruct R2 as [->|(t & ->)]; [discriminate|]. cbn in E. inversion E; subst.
    rewrite has_char_cons in H1. discriminate.
  - rewrite has_char_cons in *. apply orb_false_iff in H1, H2. inversion E; subst.
    destruct (IH (proj2 H1) v2) as [-> ->]; tauto.
Qed.

Lemma ftext_cons n v f : ftext ((n, v) :: f) = "," ++ n ++ "=" ++ v ++ ftext f.
Proof. unfold ftext. cbn. now rewrite !sapp_assoc. Qed.

Lemma ftext_inj f1 f2 : Forall safe_field f1 -> Forall safe_field f2 -> ftext f1 = ftext f2 -> f1 = f2.
Proof.
  intros H1. revert f2. induction H1 as [|[n1 v1] f1 (A & B & C) _ IH]; intros f2 H2 E.
  - destruct f2 as [|[n2 v2] f2]; [reflexivity|discriminate].
  - destruct H2 as [|[n2 v2] f2 (A2 & B2 & C2) H2]; [discriminate|].
    cbn [fst snd] in *. rewrite !ftext_cons in E. apply sapp_inv_head in E. rename E into E'.
    apply first_eq in E'; auto. destruct E' as [-> E'].
    apply value_prefix in E'; auto using ftext_shape. destruct E' as [-> E']. f_equal. apply IH; auto.
Qed.

Lemma text_inj k1 k2 d1 d2 f1 f2 : has_char "," k1 = false -> has_char "," k2 = false ->
  Forall safe_field f1 -> Forall safe_field f2 ->
  signed_text k1 d1 f1 = signed_text k2 d2 f2 -> k1 = k2 /\ d1 = d2 /\ f1 = f2.
Proof.
  intros A B C D H. apply text_key_date in H; auto. destruct H as (-> & -> & H).
  repeat split. now apply ftext_inj.
Qed.

(** Changing one header's value changes the text. *)
Lemma ftext_change n v1 v2 f1 f2 :
  Forall2 (fun a b : string * string => fst a = fst b /\
     (if String.eqb (fst a) n then snd a = v1 /\ snd b = v2 else snd a = snd b)) f1 f2 ->
  (exists f, In f f1 /\ fst f = n) -> v1 <> v2 -> ftext f1 <> ftext f2.
Proof.
  intros H.
  destruct (Nat.eq_dec (String.length v1) (String.length v2)) as [El|El].
  - induction H as [|[n1 a] [n2 b] f1 f2 (Hn & Hv) _ IH]; intros (f & Hf & Hfn) Hne E; [destruct Hf|].
    cbn [fst snd] in *. subst n2. rewrite !ftext_cons in E. do 3 apply sapp_inv_head in E.
    destruct (String.eqb_spec n1 n) as [->|Hx].
    + destruct Hv as [-> ->]. apply sapp_eq_len in E; auto. tauto.
    + subst b. apply sapp_inv_head in E. apply IH; auto. destruct Hf as [<-|Hf]; [cbn in Hfn; congruence|eauto].
  - intros Hex _ E. apply (f_equal String.length) in E. revert E.
    assert (G: exists c : nat, (String.length (ftext f1) + c * String.length v2 = String.length (ftext f2) + c * String.length v1)%nat
       /\ ((exists f, In f f1 /\ fst f = n) -> (0 < c)%nat)).
    { clear Hex. induction H as [|[n1 a] [n2 b] f1 f2 (Hn & Hv) _ (c & IH & Hc)].
      - exists 0%nat. split; [reflexivity|intros (? & [] & _)].
      - cbn in Hn, Hv. subst n2. unfold ftext in *. cbn [map concat_all fst snd].
        rewrite !sapp_length. destruct (String.eqb_spec n1 n) as [->|Hx].
        + destruct Hv as [-> ->]. exists (S c). split; [rewrite !Nat.mul_succ_l; lia|lia].
        + subst b. exists c. split; [lia|]. intros (f & [<-|Hf] & Hfn); [cbn in Hfn; congruence|eauto]. }
    destruct G as (c & G & Hc). specialize (Hc Hex). intros E. rewrite E in G.
    assert (c * String.length v2 = c * String.length v1)%nat by lia. apply El.
    symmetry. eapply Nat.mul_cancel_l; [|exact H0]. lia.
Qed.

(** ** Tampering *)
Lemma same_header_parts pairs m1 m2 h k1 kp1 ns1 d1 fs1 k2 kp2 ns2 d2 fs2 :
  has_header m1 "bluelink-signature-v1" h -> has_header m2 "bluelink-signature-v1" h ->
  authentic hmac pairs m1 k1 kp1 ns1 d1 fs1 -> authentic hmac pairs m2 k2 kp2 ns2 d2 fs2 ->
  k1 = k2 /\ kp1 = kp2 /\ ns1 = ns2 /\
  hmac (secret_key kp1) (signed_text (key_id kp1) d1 fs1) = hmac (secret_key kp2) (signed_text (key_id kp2) d2 fs2).
Proof.
  intros H1 H2 (h1 & s1 & A1 & _ & P1 & K1 & _ & _ & M1) (h2 & s2 & A2 & _ & P2 & K2 & _ & _ & M2).
  unfold has_header in *. assert (h1 = h) by congruence. assert (h2 = h) by congruence. subst h1 h2.
  destruct (presents_fun _ _ _ _ _ _ _ P1 P2) as (-> & -> & ->).
  split; [reflexivity|]. split; [congruence|]. split; [reflexivity|]. congruence.
Qed.

Lemma date_covered c1 c2 pairs m1 m2 h d1 d2 t1 t2 s1 s2 :
  has_header m1 "bluelink-signature-v1" h -> has_header m2 "bluelink-signature-v1" h ->
  verify_signature hmac c1 pairs m1 t1 s1 = Ok tt -> verify_signature hmac c2 pairs m2 t2 s2 = Ok tt ->
  request_date m1 d1 -> request_date m2 d2 -> d1 <> d2 ->
  exists kp x1 x2, collision hmac (secret_key kp) (secret_key kp) x1 x2.
Proof.
  intros H1 H2 V1 V2 D1 D2 Hne.
  apply verify_ok_authentic in V1, V2.
  destruct V1 as (k1 & kp1 & ns1 & e1 & fs1 & A1 & _). destruct V2 as (k2 & kp2 & ns2 & e2 & fs2 & A2 & _).
  destruct (same_header_parts _ _ _ _ _ _ _ _ _ _ _ _ _ _ H1 H2 A1 A2) as (<- & <- & <- & E).
  assert (e1 = d1). { destruct A1 as (? & ? & _ & _ & _ & _ & D & _). eapply request_date_fun; eauto. }
  assert (e2 = d2). { destruct A2 as (? & ? & _ & _ & _ & _ & D & _). eapply request_date_fun; eauto. }
  subst. exists kp1, (signed_text (key_id kp1) d1 fs1), (signed_text (key_id kp1) d2 fs2).
  split; [|exact E]. intros T. apply text_date in T. tauto.
Qed.

Lemma fields_changed m ns f1 f2 x v1 v2 :
  fields m ns f1 -> fields (hset x v2 m) ns f2 -> has_header m x v1 -> 
  Forall2 (fun a b : string * string => fst a = fst b /\
     (if String.eqb (fst a) (lower x) then snd a = v1 /\ snd b = v2 else snd a = snd b)) f1 f2.
Proof.
  unfold fields. intros H1 H2 Hx. revert f2 H2.
  induction H1 as [|n f l fs (Ha & Hb & _) _ IH]; intros f2 H2; inversion H2 as [|? g ? gs (Hc & Hd & _) Hr]; subst; constructor; auto.
  split; [congruence|]. unfold has_header, hset in *. rewrite Ha in *.
  rewrite lookup_insert in Hd.
  destruct (String.eqb_spec (lower n) (lower x)) as [E|E].
  - rewrite E in Hb. split; congruence.
  - congruence.
Qed.

Lemma header_covered c1 c2 pairs m x v1 v2 h k ns sg t1 t2 s1 s2 :
  has_header m "bluelink-signature-v1" h -> presents h k ns sg ->
  In x ns -> x <> "bluelink-date" -> lower x <> "bluelink-signature-v1" ->
  lower x <> "bluelink-date" ->
  has_header m x v1 -> v1 <> v2 ->
  verify_signature hmac c1 pairs m t1 s1 = Ok tt ->
  verify_signature hmac c2 pairs (hset x v2 m) t2 s2 = Ok tt ->
  exists kp y1 y2, collision hmac (secret_key kp) (secret_key kp) y1 y2.
Proof.
  intros Hh Hp Hi Hnd Hns Hnd2 Hx Hne V1 V2.
  assert (Hh2: has_header (hset x v2 m) "bluelink-signature-v1" h).
  { unfold has_header, hset in *. rewrite lookup_insert_ne; auto. }
  apply verify_ok_authentic in V1, V2.
  destruct V1 as (k1 & kp1 & ns1 & e1 & fs1 & A1 & _). destruct V2 as (k2 & kp2 & ns2 & e2 & fs2 & A2 & _).
  destruct (same_header_parts _ _ _ _ _ _ _ _ _ _ _ _ _ _ Hh Hh2 A1 A2) as (<- & <- & <- & E).
  assert (ns1 = ns). { destruct A1 as (h1 & sg1 & B & _ & P & _). unfold has_header in *.
    assert (h1 = h) by congruence. subst h1. destruct (presents_fun _ _ _ _ _ _ _ P Hp) as (_ & -> & _). reflexivity. }
  subst ns1. exists kp1, (signed_text (key_id kp1) e1 fs1), (signed_text (key_id kp1) e2 fs2).
  split; [|exact E]. intros T. apply text_date in T. destruct T as [_ T].
  destruct A1 as (? & ? & _ & _ & _ & _ & _ & F1 & _). destruct A2 as (? & ? & _ & _ & _ & _ & _ & F2 & _).
  eapply (ftext_change (lower x) v1 v2); [exact (fields_changed _ _ _ _ _ _ _ F1 F2 Hx)| |exact Hne|exact T].
  clear - F1 Hi Hnd. unfold fields in F1.
  assert (Hi': In x (filter (fun n => if string_dec n "bluelink-date" then false else true) ns)).
  { apply filter_In. split; [assumption|]. destruct (string_dec x "bluelink-date"); [congruence|reflexivity]. }
  induction F1 as [|n f l fs (H1 & _) _ IH]; [destruct Hi'|].
  destruct Hi' as [->|Hi']; [exists f; split; [now left|assumption]|].
  destruct (IH Hi') as (g & G1 & G2). exists g. split; [now right|assumption].
Qed.

(** The same signature offered under another key id. *)
Lemma key_covered c1 c2 pairs m1 m2 h1 h2 k1 k2 ns1 ns2 sg t1 t2 s1 s2 :
  (forall k kp, lookup k pairs = Some kp -> key_id kp = k) ->
  has_header m1 "bluelink-signature-v1" h1 -> has_header m2 "bluelink-signature-v1" h2 ->
  presents h1 k1 ns1 sg -> presents h2 k2 ns2 sg -> k1 <> k2 ->
  verify_signature hmac c1 pairs m1 t1 s1 = Ok tt -> verify_signature hmac c2 pairs m2 t2 s2 = Ok tt ->
  exists kp1 kp2 x1 x2, lookup k1 pairs = Some kp1 /\ lookup k2 pairs = Some kp2 /\
    collision hmac (secret_key kp1) (secret_key kp2) x1 x2.
Proof.
  intros HK H1 H2 P1 P2 Hne V1 V2.
  apply verify_ok_authentic in V1, V2.
  destruct V1 as (k1' & kp1 & n1' & e1 & fs1 & A1 & _). destruct V2 as (k2' & kp2 & n2' & e2 & fs2 & A2 & _).
  destruct A1 as (h1' & sg1 & B1 & _ & Q1 & K1 & _ & _ & M1). destruct A2 as (h2' & sg2 & B2 & _ & Q2 & K2 & _ & _ & M2).
  unfold has_header in *. assert (h1' = h1) by congruence. assert (h2' = h2) by congruence. subst h1' h2'.
  destruct (presents_fun _ _ _ _ _ _ _ Q1 P1) as (-> & -> & ->).
  destruct (presents_fun _ _ _ _ _ _ _ Q2 P2) as (-> & -> & ->).
  exists kp1, kp2, (signed_text (key_id kp1) e1 fs1), (signed_text (key_id kp2) e2 fs2).
  split; [assumption|]. split; [assumption|]. split; [|congruence].
  assert (C: forall h k ns s, presents h k ns s -> has_char "," k = false).
  { intros h k ns s (p0 & p1 & p2 & _ & Hpart & _). destruct Hpart as (l & r & q1 & q2 & _ & _ & _ & Hc & _).
    rewrite has_char_cons, has_char_app in Hc. apply orb_false_iff in Hc. destruct Hc as [_ Hc].
    apply orb_false_iff in Hc. tauto. }
  intros T. apply text_key_date in T.
  - destruct T as (T & _). apply Hne. rewrite <- (HK _ _ K1), <- (HK _ _ K2). exact T.
  - rewrite (HK _ _ K1). eapply C; eauto.
  - rewrite (HK _ _ K2). eapply C; eauto.
Qed.

(** ** Crashes *)
Lemma strip_not_panic E v : (2 <= String.length v)%nat -> @strip_quotes E v <> Panic.
Proof. intros H. unfold strip_quotes. destruct (Nat.ltb_spec (String.length v) 2); [lia|discriminate]. Qed.

Lemma part_value_long h pre p post n v : values_quoted h -> h = pre ++ p ++ post ->
  (post = "" \/ exists t, post = "," ++ t) -> split_on "=" p = [n; v] -> (2 <= String.length v)%nat.
Proof.
  intros Q -> Hpost Hs. apply split_eq2 in Hs. destruct Hs as (-> & _ & _).
  destruct (Q (pre ++ n) (v ++ post)) as (x & y & r & E & Hx & Hy).
  { rewrite !sapp_assoc. reflexivity. }
  destruct v as [|a [|b v]]; cbn; try lia.
  - destruct Hpost as [->|(t & ->)]; [discriminate|]. cbn in E. inversion E; congruence.
  - destruct Hpost as [->|(t & ->)]; [discriminate|]. cbn in E. inversion E; congruence.
Qed.

Lemma unpack_no_panic h : values_quoted h -> unpack_signature h <> Panic.
Proof.
  intros Q. unfold unpack_signature.
  destruct (split_on "," h) as [|p0 [|p1 [|p2 [|]]]] eqn:E; try discriminate.
  apply split3 in E. destruct E as (E & _).
  assert (S0: forall n v, split_on "=" p0 = [n; v] -> (2 <= String.length v)%nat).
  { intros. eapply (part_value_long h "" p0 ("," ++ p1 ++ "," ++ p2)); eauto. }
  assert (S1: forall n v, split_on "=" p1 = [n; v] -> (2 <= String.length v)%nat).
  { intros. eapply (part_value_long h (p0 ++ ",") p1 ("," ++ p2)); eauto. rewrite E, !sapp_assoc; reflexivity. }
  assert (S2: forall n v, split_on "=" p2 = [n; v] -> (2 <= String.length v)%nat).
  { intros. eapply (part_value_long h (p0 ++ "," ++ p1 ++ ",") p2 ""); eauto.
    rewrite E, !sapp_assoc, sapp_nil_r; reflexivity. }
  destruct (unpack_key_id p0) as [k| |] eqn:E0; try discriminate.
  2:{ exfalso. revert E0. unfold unpack_key_id. destruct (split_on "=" p0) as [|n [|v [|]]] eqn:Es; try discriminate.
      destruct (String.eqb _ _); [|discriminate]. apply strip_not_panic. eapply S0; reflexivity. }
  cbn [obind]. destruct (unpack_headers p1) as [k1| |] eqn:E1; try discriminate.
  2:{ exfalso. revert E1. unfold unpack_headers. destruct (split_on "=" p1) as [|n [|v [|]]] eqn:Es; try discriminate.
      destruct (String.eqb _ _); [|discriminate].
      pose proof (strip_not_panic sig_error v (S1 _ _ eq_refl)). destruct (strip_quotes v); cbn; congruence. }
  cbn [obind]. destruct (unpack_signature_value p2) as [k2| |] eqn:E2; try discriminate.
  exfalso. revert E2. unfold unpack_signature_value. destruct (split_on "=" p2) as [|n [|v [|]]] eqn:Es; try discriminate.
  destruct (String.eqb _ _); [|discriminate]. apply strip_not_panic. eapply S2; reflexivity.
Qed.

Lemma collect_no_panic m ns : collect_headers m ns <> Panic.
Proof.
  induction ns as [|n ns IH]; cbn; [discriminate|]. unfold custom_header.
  destruct (hget n m) as [v|]; [|discriminate]. destruct (to_str v); [|discriminate]. cbn.
  destruct (collect_headers m ns); cbn; congruence.
Qed.

Lemma extract_no_panic m : extract_date_from_header m <> Panic.
Proof.
  unfold extract_date_from_header. destruct (hget _ m) as [v|]; [|discriminate].
  destruct (to_str v) as [s|]; [|discriminate]. destruct (parse_u64 s); discriminate.
Qed.

Lemma message_no_panic kp m ns : create_message kp m ns <> Panic.
Proof.
  unfold create_message. pose proof (extract_no_panic m).
  destruct (extract_date_from_header m); cbn [map_err obind]; try congruence; try discriminate.
  pose proof (collect_no_panic m (filter (fun n => negb (String.eqb n (lower DATE_HEADER_NAME))) ns)).
  destruct (collect_headers m _); cbn [obind]; congruence.
Qed.

Lemma verify_no_panic checked pairs m now sk :
  (forall h, has_header m "bluelink-signature-v1" h -> values_quoted h) ->
  (forall d, request_date m d -> skew_of sk <= d /\ d + skew_of sk < two64) ->
  verify_signature hmac checked pairs m now sk <> Panic.
Proof.
  intros Hh Hd. unfold verify_signature, hget. change (lower SIGNATURE_HEADER_NAME) with (lower "bluelink-signature-v1").
  unfold has_header in Hh. destruct (lookup (lower "bluelink-signature-v1") m) as [h|]; [|discriminate].
  destruct (to_str h) as [h'|] eqn:Et; [|discriminate]. apply to_str_spec in Et. destruct Et as [-> _].
  pose proof (unpack_no_panic h (Hh h eq_refl)).
  destruct (unpack_signature h) as [[k sg ns]| |]; cbn [obind sp_key_id sp_headers sp_signature]; try congruence; try discriminate.
  destruct (lookup k pairs) as [kp|]; [|discriminate].
  pose proof (message_no_panic kp m ns).
  destruct (create_message kp m ns) as [t| |]; cbn [map_err obind]; try congruence; try discriminate.
  unfold verify_message. destruct (b64_decode sg); [|discriminate].
  destruct (String.eqb _ _); [|discriminate]. cbn [obind].
  pose proof (extract_no_panic m).
  destruct (extract_date_from_header m) as [d| |] eqn:Ed; cbn [obind]; try congruence; try discriminate.
  apply date_spec in Ed. apply Hd in Ed. destruct Ed as [Ed1 Ed2].
  change (match sk with Some s => s | None => DEFAULT_CLOCK_SKEW end) with (skew_of sk).
  pose proof (date_check_in_range checked d now (skew_of sk) Ed1 Ed2) as C. unfold date_check in C.
  rewrite C. destruct (_ && _); discriminate.
Qed.

(** A value shorter than two bytes crashes the verifier before any check. *)
Lemma short_key_panics checked pairs m v p1 p2 now sk :
  has_header m "bluelink-signature-v1" ("keyId=" ++ v ++ "," ++ p1 ++ "," ++ p2) ->
  header_text ("keyId=" ++ v ++ "," ++ p1 ++ "," ++ p2) ->
  (String.length v < 2)%nat -> has_char "," v = false -> has_char "=" v = false ->
  has_char "," p1 = false -> has_char "," p2 = false ->
  verify_signature hmac checked pairs m now sk = Panic.
Proof.
  intros Hh Ht Hl C E C1 C2. unfold verify_signature, hget.
  change (lower SIGNATURE_HEADER_NAME) with (lower "bluelink-signature-v1"). unfold has_header in Hh. rewrite Hh.
  rewrite (proj2 (to_str_spec _ _) (conj eq_refl Ht)). unfold unpack_signature.
  rewrite (proj2 (split3 _ ("keyId=" ++ v) p1 p2)) by (rewrite !sapp_assoc, has_char_app, C; auto).
  unfold unpack_key_id. rewrite (proj2 (split_eq2 _ "keyId" v)) by auto.
  change (String.eqb (trim is_ws "keyId") "keyId") with true. cbv iota.
  unfold strip_quotes. rewrite (proj2 (Nat.ltb_lt _ _) Hl). reflexivity.
Qed.

(** ** Round trips that fail *)
Fixpoint count (c : ascii) (s : string) : nat :=
  match s with EmptyString => O | String a s' => ((if Ascii.eqb a c then 1 else 0) + count c s')%nat end.
Lemma split_on_count c s : length (split_on c s) = S (count c s).
Proof.
  induction s as [|a s IH]; [reflexivity|]. cbn. destruct (Ascii.eqb a c); cbn; [now rewrite IH|].
  destruct (split_on c s) eqn:E; [now apply split_on_nil in E|]. cbn in *. exact IH.
Qed.
Lemma count_app c a b : count c (a ++ b) = (count c a + count c b)%nat.
Proof. induction a as [|x a IH]; cbn; [reflexivity|]. destruct (Ascii.eqb x c); lia. Qed.
Lemma count_has c s : has_char c s = true -> (1 <= count c s)%nat.
Proof. induction s; [discriminate|]. rewrite has_char_cons. cbn. destruct (Ascii.eqb a c); cbn; [lia|auto]. Qed.
Lemma count_none c s : count c s = 0%nat -> has_char c s = false.
Proof. destruct (has_char c s) eqn:E; [apply count_has in E; lia|auto]. Qed.

Lemma presents_commas h k ns sg : presents h k ns sg -> count "," h = 2%nat /\
  exists p0 r, h = p0 ++ "," ++ r /\ has_char "," p0 = false /\ count "=" p0 = 1%nat.
Proof.
  intros P. pose proof (proj2 (unpack_spec _ _ _ _) P) as U. unfold unpack_signature in U.
  destruct (split_on "," h) as [|p0 [|p1 [|p2 [|]]]] eqn:E; try discriminate.
  split. { pose proof (split_on_count "," h) as L. rewrite E in L. cbn in L. lia. }
  apply split3 in E. destruct E as (-> & C0 & C1 & C2). exists p0, (p1 ++ "," ++ p2). repeat split; auto.
  unfold unpack_key_id in U. pose proof (split_on_count "=" p0) as L.
  destruct (split_on "=" p0) as [|n [|v [|]]]; try discriminate. cbn in L. lia.
Qed.

Lemma separator_in_key checked pairs kp m ns now v m' now2 sk :
  has_char "," (key_id kp) = true \/ has_char "=" (key_id kp) = true ->
  create_signature_header hmac kp m ns now = Ok (v, m') ->
  verify_signature hmac checked pairs (hset "Bluelink-Signature-V1" v m') now2 sk <> Ok tt.
Proof.
  intros Hk Hc V. apply verify_ok_authentic in V. destruct V as (k & kp' & ns' & d' & fs' & A & _).
  destruct A as (h & sg & Hh & _ & P & _). unfold has_header, hset in Hh.
  change (lower "Bluelink-Signature-V1") with (lower "bluelink-signature-v1") in Hh. rewrite lookup_insert_eq in Hh.
  inversion Hh; subst h. clear Hh. apply create_spec in Hc. destruct Hc as (_ & d & fs & _ & _ & Hv).
  apply presents_commas in P. destruct P as (Pc & p0 & r & E & C0 & Ce).
  assert (K: count "," (key_id kp) = 0%nat).
  { rewrite Hv, !count_app in Pc. revert Pc. generalize (count "," (key_id kp)).
    intros n. cbn. lia. }
  apply count_none in K. destruct Hk as [Hk|Hk]; [congruence|]. apply count_has in Hk.
  rewrite Hv in E.
  assert (E': ("keyId=" ++ String """" (key_id kp ++ """")) ++ "," ++ (" headers=""" ++ join " " ("bluelink-date" :: map lower ns)
      ++ """, signature=""" ++ b64_encode (hmac (secret_key kp) (signed_text (key_id kp) d fs)) ++ """") = p0 ++ "," ++ r).
  { rewrite <- E. cbn. rewrite !sapp_assoc. reflexivity. }
  apply first_comma in E'; [|rewrite has_char_app, !has_char_cons, has_char_app, K; reflexivity|assumption].
  destruct E' as [<- _]. cbn in Ce. rewrite count_app in Ce. lia.
Qed.

Lemma ftext_len_cons n v f : String.length (ftext ((n, v) :: f)) =
  (2 + String.length n + String.length v + String.length (ftext f))%nat.
Proof. rewrite ftext_cons, !sapp_length. cbn. lia. Qed.

Lemma respelt_date_shorter m m' ns f1 f2 :
  (forall n v, In n ns -> has_header m' n v -> has_header m n v) ->
  fields m ns f1 -> fields m' (map lower ns) f2 ->
  (String.length (ftext f2) <= String.length (ftext f1))%nat /\
  ((exists n, In n ns /\ n <> "bluelink-date" /\ lower n = "bluelink-date") ->
   (String.length (ftext f2) < String.length (ftext f1))%nat).
Proof.
  unfold fields. revert f1 f2. induction ns as [|n ns IH]; intros f1 f2 Hm H1 H2; cbn [filter map] in H1, H2.
  - inversion H1; inversion H2; subst. split; [lia|intros (? & [] & _)].
  - assert (Hm': forall x v, In x ns -> has_header m' x v -> has_header m x v) by (intros; apply Hm; [now right|assumption]).
    destruct (string_dec n "bluelink-date") as [->|Hn].
    + change (lower "bluelink-date") with "bluelink-date" in H2.
      destruct (string_dec "bluelink-date" "bluelink-date"); [|congruence].
      destruct (IH f1 f2 Hm' H1 H2) as [I1 I2]. split; [assumption|].
      intros (x & [<-|Hx] & Hx1 & Hx2); [congruence|]. apply I2. eauto.
    + inversion H1 as [|? [a va] ? f1' (A1 & A2 & _) A3]; subst. cbn [fst snd] in A1, A2.
      destruct (string_dec (lower n) "bluelink-date") as [El|El].
      * destruct (IH f1' f2 Hm' A3 H2) as [I1 _]. rewrite ftext_len_cons. split; intros; lia.
      * inversion H2 as [|? [b vb] ? f2' (B1 & B2 & _) B3]; subst. cbn [fst snd] in B1, B2.
        destruct (IH f1' f2' Hm' A3 B3) as [I1 I2]. rewrite !ftext_len_cons.
        unfold has_header in *. rewrite lower_idem in *. apply (Hm n vb (or_introl eq_refl)) in B2.
        rewrite B2 in A2. inversion A2; subst. rewrite ?lower_idem. split; [lia|].
        intros (x & [<-|Hx] & Hx1 & Hx2); [congruence|].
        assert ((String.length (ftext f2') < String.length (ftext f1'))%nat) by (apply I2; eauto). lia.
Qed.

Lemma respelt_date checked pairs kp m ns now v m' now2 sk :
  well_formed m -> safe_key (key_id kp) ->
  (forall n, In n ns -> lower n <> "bluelink-signature-v1") ->
  (exists n, In n ns /\ n <> "bluelink-date" /\ lower n = "bluelink-date") ->
  lookup (key_id kp) pairs = Some kp ->
  create_signature_header hmac kp m ns now = Ok (v, m') ->
  verify_signature hmac checked pairs (hset "Bluelink-Signature-V1" v m') now2 sk = Ok tt ->
  exists t1 t2, collision hmac (secret_key kp) (secret_key kp) t1 t2.
Proof.
  intros W Hk Hns Hex Hp Hc V. apply create_spec in Hc. destruct Hc as (Em & d & fs & Hda & Hf & Hv).
  pose proof (well_formed_dated m now W) as W'. rewrite <- Em in W'.
  set (sg := b64_encode (hmac (secret_key kp) (signed_text (key_id kp) d fs))) in *.
  assert (HN: Forall (fun n => all_chars name_byte n = true) ("bluelink-date" :: map lower ns)).
  { constructor; [reflexivity|]. apply Forall_forall. intros x Hx. apply in_map_iff in Hx.
    destruct Hx as (n & <- & Hi). destruct (string_dec n "bluelink-date") as [->|Hne]; [reflexivity|].
    destruct (in_names_found _ _ _ _ Hf Hi Hne) as (w & Hw). eapply well_formed_name; eauto. }
  assert (P: presents v (key_id kp) ("bluelink-date" :: map lower ns) sg).
  { rewrite Hv. apply created_presents; auto; [apply b64_encode_plain| |discriminate].
    eapply Forall_impl; [|exact HN]. intros a Ha. apply name_plain in Ha. tauto. }
  apply verify_ok_authentic in V. destruct V as (k & kp' & ns' & d' & fs' & A & _).
  destruct A as (h & sg' & Hh & _ & P' & Kp & Hd' & Hf' & Hmac). unfold has_header, hset in Hh.
  change (lower "Bluelink-Signature-V1") with (lower "bluelink-signature-v1") in Hh. rewrite lookup_insert_eq in Hh.
  inversion Hh; subst h. destruct (presents_fun _ _ _ _ _ _ _ P P') as (<- & <- & <-).
  assert (kp' = kp) by congruence. subst kp'. unfold sg in Hmac. rewrite b64_round_trip in Hmac.
  exists (signed_text (key_id kp) d fs), (signed_text (key_id kp) d' fs'). split; [|congruence].
  intros T. apply text_date in T. destruct T as [_ T].
  assert (Hf2: fields (hset "Bluelink-Signature-V1" v m') (map lower ns) fs').
  { unfold fields in Hf' |- *. cbn [filter] in Hf'. destruct (string_dec "bluelink-date" "bluelink-date"); [exact Hf'|congruence]. }
  destruct (respelt_date_shorter m' (hset "Bluelink-Signature-V1" v m') ns fs fs') as [_ L]; auto.
  - intros n w Hi Hw. unfold has_header, hset in *. rewrite lookup_insert_ne in Hw; [exact Hw|].
    exact (Hns n Hi).
  - specialize (L Hex). rewrite T in L. lia.
Qed.

Lemma create_no_panic kp m ns now : create_signature_header hmac kp m ns now <> Panic.
Proof.
  unfold create_signature_header. cbv zeta.
  match goal with |- context [create_message kp ?x ns] => pose proof (message_no_panic kp x ns); destruct (create_message kp x ns) end;
    cbn [obind]; congruence.
Qed.
End V.
