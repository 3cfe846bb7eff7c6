(** Exact theorems about signature verification (properties C39, C40): when a
    request is accepted and when the verifier crashes, for every request.
    Model: SigModel.v.  Vocabulary: SigSpec.v, SigExactSpec.v. *)
From Verif Require Import Base Text SigModel SigSpec SigProofs SigExactSpec.
Open Scope string_scope.
Local Open Scope N_scope.

Lemma short_spec name p : name <> "" ->
  all_chars (fun c => negb (is_ws c) && negb (Ascii.eqb c ",") && negb (Ascii.eqb c "=")) name = true ->
  has_char "," p = false ->
  (short_part name p <-> exists n v, split_on "=" p = [n; v] /\ trim is_ws n = name /\ (String.length v < 2)%nat).
Proof.
  intros Hne Hc Hp.
  assert (Hw: all_chars (fun c => negb (is_ws c)) name = true).
  { eapply all_chars_impl; [|exact Hc]. intros a H. apply andb_true_iff in H. destruct H as [H _].
    apply andb_true_iff in H. tauto. }
  assert (Heq: has_char "=" name = false).
  { refine (has_char_all _ _ _ _ Hc). reflexivity. }
  split.
  - intros (l & r & v & Hl & Hr & -> & H1 & H2 & Hv).
    exists (l ++ name ++ r), v. repeat split; auto.
    + apply split_eq2. rewrite !sapp_assoc. split; [reflexivity|]. rewrite !has_char_app.
      rewrite (blank_no "=" l), (blank_no "=" r), Heq by (assumption || reflexivity). auto.
    + apply trim_name_spec; auto. eauto 6.
  - intros (n & v & Hs & Ht & Hl2). apply split_eq2 in Hs. destruct Hs as (-> & Hn & Hv).
    apply trim_name_spec in Ht; [|assumption|assumption]. destruct Ht as (l & r & Hl & Hr & ->).
    exists l, r, v. repeat split; auto.
    + now rewrite !sapp_assoc.
    + rewrite has_char_app in Hp. apply orb_false_iff in Hp. destruct Hp as [_ Hp].
      rewrite has_char_app in Hp. apply orb_false_iff in Hp. tauto.
Qed.

Lemma strip_panic E v : @strip_quotes E v = Panic <-> (String.length v < 2)%nat.
Proof. unfold strip_quotes. destruct (Nat.ltb_spec (String.length v) 2); split; intros; try discriminate; auto; lia. Qed.

Lemma key_panic p : has_char "," p = false -> (unpack_key_id p = Panic <-> short_part "keyId" p).
Proof.
  intros Hp. rewrite short_spec by (discriminate || reflexivity || assumption). unfold unpack_key_id. split.
  - destruct (split_on "=" p) as [|n [|v [|]]] eqn:E; try discriminate.
    destruct (String.eqb_spec (trim is_ws n) "keyId"); [|discriminate].
    intros H. apply strip_panic in H. eauto 8.
  - intros (n & v & -> & -> & H). cbn [String.eqb]. now apply strip_panic.
Qed.
Lemma sigv_panic p : has_char "," p = false -> (unpack_signature_value p = Panic <-> short_part "signature" p).
Proof.
  intros Hp. rewrite short_spec by (discriminate || reflexivity || assumption). unfold unpack_signature_value. split.
  - destruct (split_on "=" p) as [|n [|v [|]]] eqn:E; try discriminate.
    destruct (String.eqb_spec (trim is_ws n) "signature"); [|discriminate].
    intros H. apply strip_panic in H. eauto 8.
  - intros (n & v & -> & -> & H). cbn [String.eqb]. now apply strip_panic.
Qed.
Lemma headers_panic p : has_char "," p = false -> (unpack_headers p = Panic <-> short_part "headers" p).
Proof.
  intros Hp. rewrite short_spec by (discriminate || reflexivity || assumption). unfold unpack_headers. split.
  - destruct (split_on "=" p) as [|n [|v [|]]] eqn:E; try discriminate.
    destruct (String.eqb_spec (trim is_ws n) "headers"); [|discriminate].
    intros H. exists n, v. repeat split; auto. apply (strip_panic sig_error).
    destruct (strip_quotes v); [discriminate|discriminate|reflexivity].
  - intros (n & v & -> & -> & H). cbn [String.eqb]. apply (strip_panic sig_error) in H.
    change (String.eqb "headers" "headers") with true. cbv iota. rewrite H. reflexivity.
Qed.
Lemma headers_part p : has_char "," p = false ->
  ((exists ns, unpack_headers p = Ok ns) <-> exists t, part "headers" t p).
Proof.
  intros Hp. split.
  - intros (ns & H). apply unpack_headers_spec in H; auto. destruct H as (H & _). eauto.
  - intros (t & H). exists (split_on " " t). apply unpack_headers_spec; auto. rewrite join_split_on.
    split; [exact H|]. split; [apply split_on_nil|apply split_on_pieces].
Qed.

Lemma unpack_panic h : unpack_signature h = Panic <-> breaks h.
Proof.
  unfold unpack_signature, breaks. split.
  - destruct (split_on "," h) as [|p0 [|p1 [|p2 [|]]]] eqn:E; try discriminate.
    apply split3 in E. destruct E as (-> & C0 & C1 & C2). intros H.
    exists p0, p1, p2. split; [reflexivity|]. repeat (split; [assumption|]).
    destruct (unpack_key_id p0) as [k| |] eqn:E0; cbn [obind] in H; try discriminate;
      [|left; now apply key_panic].
    right. split; [exists k; now apply unpack_key_spec|].
    destruct (unpack_headers p1) as [ns| |] eqn:E1; cbn [obind] in H; try discriminate;
      [|left; now apply headers_panic].
    right. split; [apply headers_part; eauto|].
    destruct (unpack_signature_value p2) as [s| |] eqn:E2; cbn [obind] in H; try discriminate.
    now apply sigv_panic.
  - intros (p0 & p1 & p2 & -> & C0 & C1 & C2 & H).
    rewrite (proj2 (split3 _ p0 p1 p2)) by auto.
    destruct H as [H|((k & Hk) & H)].
    { apply key_panic in H; auto. rewrite H. reflexivity. }
    apply unpack_key_spec in Hk; auto. rewrite Hk. cbn [obind].
    destruct H as [H|(Ht & H)].
    { apply headers_panic in H; auto. rewrite H. reflexivity. }
    apply headers_part in Ht; auto. destruct Ht as (ns & Ht). rewrite Ht. cbn [obind].
    apply sigv_panic in H; auto. rewrite H. reflexivity.
Qed.

Lemma date_panic checked d now s : date_check checked d now s = Panic <-> checked = true /\ window_overflows d s now.
Proof.
  unfold date_check, add64, sub64, window_overflows. change (2 ^ 64) with two64.
  destruct (N.ltb_spec (d + s) two64), checked; cbn [obind].
  - destruct (N.ltb_spec (d + s) now), (N.leb_spec s d); cbn [obind]; try destruct (now <? d - s); split;
      intros; try discriminate; try lia; auto.
  - destruct (d + s <? now), (s <=? d); cbn [obind]; try destruct (now <? _); split;
      intros; try discriminate; destruct H0; discriminate.
  - split; auto.
  - destruct (_ <? now), (s <=? d); cbn [obind]; try destruct (now <? _); split;
      intros; try discriminate; destruct H0; discriminate.
Qed.

Lemma date_ok checked d now s : d < two64 -> 2 * s < two64 ->
  (date_check checked d now s = Ok tt <-> s <= d /\ d + s < two64 /\ d - s <= now <= d + s).
Proof.
  intros Hd Hs. unfold date_check, add64, sub64.
  destruct (N.ltb_spec (d + s) two64) as [A|A]; cbn [obind].
  - destruct (N.ltb_spec (d + s) now); [split; [discriminate|lia]|].
    destruct (N.leb_spec s d); cbn [obind].
    + destruct (N.ltb_spec now (d - s)); split; try discriminate; auto; lia.
    + destruct checked; cbn [obind]; [split; [discriminate|lia]|].
      rewrite N.mod_small by lia.
      destruct (N.ltb_spec now (d + two64 - s)); split; try discriminate; lia.
  - destruct checked; cbn [obind]; [split; [discriminate|lia]|].
    replace (d + s) with ((d + s - two64) + 1 * two64) at 1 2 by lia.
    rewrite N.mod_add by discriminate. rewrite N.mod_small by lia.
    destruct (N.ltb_spec (d + s - two64) now); [split; [discriminate|lia]|].
    destruct (N.leb_spec s d); cbn [obind].
    + destruct (N.ltb_spec now (d - s)); split; try discriminate; lia.
    + lia.
Qed.

(** *** C39 *)

(** A request is accepted exactly when it is authentic, its window can be computed
    in 64 bits and holds the verifier's time: in either build, for every request
    and every skew under 2^63 seconds. *)
Theorem C39_accepted_exact : forall hmac checked pairs m now sk, 2 * skew_of sk < 2 ^ 64 ->
  (verify_signature hmac checked pairs m now sk = Ok tt <->
   exists k kp ns d fs, authentic hmac pairs m k kp ns d fs /\
     skew_of sk <= d /\ d + skew_of sk < 2 ^ 64 /\ d - skew_of sk <= now <= d + skew_of sk).
Proof.
  intros hmac checked pairs m now sk Hs. change (2 ^ 64) with two64 in *. split.
  - intros H. apply verify_ok_authentic in H. destruct H as (k & kp & ns & d & fs & A & C).
    exists k, kp, ns, d, fs. split; [exact A|].
    assert (D: d < two64) by (destruct A as (? & ? & _ & _ & _ & _ & D & _); destruct D as (? & _ & _ & D & _); exact D).
    apply date_ok in C; auto.
  - intros (k & kp & ns & d & fs & A & C1 & C2 & C3). rewrite (authentic_check hmac pairs m k kp ns d fs) by exact A.
    apply date_ok; auto. lia.
Qed.

(** *** C40 *)

(** The verifier crashes exactly on the headers whose first malformed part has too
    short a value, for any caller, and, with overflow checks, on the authentic
    requests whose window cannot be computed. *)
Theorem C40_crashes_exact : forall hmac checked pairs m now sk,
  verify_signature hmac checked pairs m now sk = Panic <->
  (exists h, has_header m "bluelink-signature-v1" h /\ header_text h /\ breaks h) \/
  (checked = true /\ exists k kp ns d fs, authentic hmac pairs m k kp ns d fs /\
     window_overflows d (skew_of sk) now).
Proof.
  intros hmac checked pairs m now sk. split.
  - intros H. pose proof H as H0.
    unfold verify_signature, hget in H. change (lower SIGNATURE_HEADER_NAME) with (lower "bluelink-signature-v1") in H.
    destruct (lookup (lower "bluelink-signature-v1") m) as [h|] eqn:Eh; [|discriminate].
    destruct (to_str h) as [h'|] eqn:Et; [|discriminate]. apply to_str_spec in Et. destruct Et as [-> Hv].
    destruct (unpack_signature h) as [[k sg ns]| |] eqn:Eu; try discriminate.
    2:{ left. exists h. split; [exact Eh|]. split; [exact Hv|]. now apply unpack_panic. }
    apply unpack_spec in Eu. right.
    cbn [obind sp_key_id sp_headers sp_signature] in H.
    destruct (lookup k pairs) as [kp|] eqn:Ek; [|discriminate].
    pose proof (message_no_panic kp m ns) as Hm.
    destruct (create_message kp m ns) as [t| |] eqn:Em; try discriminate; [|congruence]. cbn [map_err obind] in H.
    apply message_spec in Em. destruct Em as (d & fs & Hd & Hf & ->).
    unfold verify_message in H. destruct (b64_decode sg) as [c|] eqn:Eb; [|discriminate].
    destruct (String.eqb_spec (hmac (secret_key kp) (signed_text (key_id kp) d fs)) c) as [<-|]; [|discriminate].
    assert (A: authentic hmac pairs m k kp ns d fs).
    { exists h, sg. repeat (split; [assumption|]). exact Eb. }
    rewrite (authentic_check hmac pairs m k kp ns d fs) in H0 by exact A.
    apply date_panic in H0. destruct H0 as [-> W]. split; [reflexivity|]. eauto 8.
  - intros [(h & Hh & Ht & Hb)|(-> & k & kp & ns & d & fs & A & W)].
    + unfold verify_signature, hget. change (lower SIGNATURE_HEADER_NAME) with (lower "bluelink-signature-v1").
      unfold has_header in Hh. rewrite Hh. rewrite (proj2 (to_str_spec _ _) (conj eq_refl Ht)).
      apply unpack_panic in Hb. rewrite Hb. reflexivity.
    + rewrite (authentic_check hmac pairs m k kp ns d fs) by exact A. now apply date_panic.
Qed.

(** No caller without a registered key can crash the verifier by its date. *)
Theorem C40_strangers : forall hmac checked m now sk,
  verify_signature hmac checked [] m now sk = Panic <->
  exists h, has_header m "bluelink-signature-v1" h /\ header_text h /\ breaks h.
Proof.
  intros. rewrite C40_crashes_exact. split; [|auto].
  intros [H|(_ & k & kp & ns & d & fs & (h & sg & _ & _ & _ & L & _) & _)]; [exact H|discriminate L].
Qed.

Example C40_exact_nonvacuous :
  breaks "keyId=""k"",headers=x,signature" /\
  ~ breaks "keyId=""k"",header=x,signature=""s""" /\
  window_overflows 100 300 100 /\ ~ window_overflows 100 300 401.
Proof.
  split; [|split; [|split]].
  - apply unpack_panic. reflexivity.
  - intros H. apply unpack_panic in H. discriminate H.
  - right. lia.
  - intros [H|H]; lia.
Qed.

Print Assumptions C39_accepted_exact.
Print Assumptions C40_crashes_exact.
Print Assumptions C40_strangers.
