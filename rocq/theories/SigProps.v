(** Theorems about request signatures (properties C37-C41).
    Model: SigModel.v.  Vocabulary: SigSpec.v.
    [hmac] is any function from secret and text to a code, [checked] is either
    build profile. *)
From Verif Require Import Base Text SigModel SigSpec SigProofs.
Open Scope string_scope.
Local Open Scope N_scope.

(** *** C37 *)

(** Signing succeeds whenever every named header is present and printable and a
    date, if given, is a number. *)
Theorem C37_signing_succeeds : forall hmac kp m ns now, now < two64 ->
  (forall s, has_header m "bluelink-date" s -> exists d, request_date m d) ->
  (forall n, In n ns -> n <> "bluelink-date" -> exists v, has_header (dated m now) n v /\ header_text v) ->
  exists v m', create_signature_header hmac kp m ns now = Ok (v, m').
Proof. exact create_total. Qed.

(** The request handed back has the given headers, with the signer's time as its
    date when it had none. *)
Theorem C37_signed_headers : forall hmac kp m ns now v m',
  create_signature_header hmac kp m ns now = Ok (v, m') -> m' = dated m now.
Proof. intros hmac kp m ns now v m' H. now apply create_spec in H. Qed.

Theorem C37_signed_date_is_signer_time : forall m now, now < two64 ->
  lookup "bluelink-date" m = None -> request_date (dated m now) now.
Proof. exact created_date. Qed.

(** The signed request is accepted while the verifier's clock is within the skew.
    Full claim: for every key id and header list.  Missing: key ids with a comma
    or '=', and lists that spell the date header with capitals (refuted below);
    a list naming the signature header itself; dates within a skew of 0 or 2^64. *)
Theorem C37_round_trip_partial : forall hmac checked pairs kp m ns now v m' now2 sk d,
  well_formed m -> safe_key (key_id kp) ->
  (forall n, In n ns -> lower n <> "bluelink-signature-v1") ->
  (forall n, In n ns -> lower n = "bluelink-date" -> n = "bluelink-date") ->
  lookup (key_id kp) pairs = Some kp ->
  create_signature_header hmac kp m ns now = Ok (v, m') ->
  request_date m' d -> skew_of sk <= d -> d + skew_of sk < two64 ->
  d - skew_of sk <= now2 <= d + skew_of sk ->
  verify_signature hmac checked pairs (hset "Bluelink-Signature-V1" v m') now2 sk = Ok tt.
Proof. exact round_trip. Qed.

(** A key id with a comma or '=' signs but never verifies. *)
Theorem C37_key_id_separators_refuted : forall hmac checked pairs kp m ns now v m' now2 sk,
  has_char "," (key_id kp) = true \/ has_char "=" (key_id kp) = true ->
  create_signature_header hmac kp m ns now = Ok (v, m') ->
  verify_signature hmac checked pairs (hset "Bluelink-Signature-V1" v m') now2 sk <> Ok tt.
Proof. exact separator_in_key. Qed.

(** Naming the date header with capitals ("Bluelink-Date") signs but does not
    verify, unless the MAC collides. *)
Theorem C37_capitalised_date_refuted : forall hmac checked pairs kp m ns now v m' now2 sk,
  well_formed m -> safe_key (key_id kp) ->
  (forall n, In n ns -> lower n <> "bluelink-signature-v1") ->
  (exists n, In n ns /\ n <> "bluelink-date" /\ lower n = "bluelink-date") ->
  lookup (key_id kp) pairs = Some kp ->
  create_signature_header hmac kp m ns now = Ok (v, m') ->
  verify_signature hmac checked pairs (hset "Bluelink-Signature-V1" v m') now2 sk = Ok tt ->
  exists t1 t2, collision hmac (secret_key kp) (secret_key kp) t1 t2.
Proof. exact respelt_date. Qed.

Definition toy_mac (s t : string) : string := s ++ "|" ++ t.
Definition ex_kp := {| key_id := "test-key-id"; secret_key := "test-secret_key" |}.
Definition ex_headers : header_map := [("x-custom-header", "custom-value"); ("content-type", "a/b; c=d")].
Definition ex_names := ["X-Custom-Header"; "content-Type"].
Definition ex_signed : header_map :=
  match create_signature_header toy_mac ex_kp ex_headers ex_names 1727895652 with
  | Ok (v, m) => hset "Bluelink-Signature-V1" v m | _ => [] end.

Example C37_nonvacuous :
  well_formed ex_headers /\ safe_key (key_id ex_kp) /\
  (exists v m', create_signature_header toy_mac ex_kp ex_headers ex_names 1727895652 = Ok (v, m')
     /\ request_date m' 1727895652) /\
  verify_signature toy_mac true [("test-key-id", ex_kp)] ex_signed 1727895952 None = Ok tt /\
  (exists v m', create_signature_header toy_mac ex_kp ex_headers ["Bluelink-Date"] 5 = Ok (v, m')) /\
  (exists v m', create_signature_header toy_mac {| key_id := "a=b"; secret_key := "s" |} ex_headers [] 5 = Ok (v, m')).
Proof.
  split; [repeat constructor; discriminate|]. split; [split; [apply header_text_visible; reflexivity|split; reflexivity]|].
  split. { eexists _, _. split; [vm_compute; reflexivity|]. apply date_spec. vm_compute. reflexivity. }
  split; [vm_compute; reflexivity|].
  split; eexists _, _; vm_compute; reflexivity.
Qed.

(** *** C38 *)

(** An accepted request carries the code, under the secret registered for the key
    id it presents, of the text naming key id, date and every listed header. *)
Theorem C38_accepted_is_authentic : forall hmac checked pairs m now sk,
  verify_signature hmac checked pairs m now sk = Ok tt ->
  exists k kp ns d fs, authentic hmac pairs m k kp ns d fs.
Proof.
  intros hmac checked pairs m now sk H. apply verify_ok_authentic in H.
  destruct H as (k & kp & ns & d & fs & A & _). eauto 6.
Qed.

(** Two accepted requests with one signature header have one date, whatever else
    differs, unless the MAC collides. *)
Theorem C38_date_is_covered : forall hmac c1 c2 pairs m1 m2 h d1 d2 t1 t2 s1 s2,
  has_header m1 "bluelink-signature-v1" h -> has_header m2 "bluelink-signature-v1" h ->
  verify_signature hmac c1 pairs m1 t1 s1 = Ok tt -> verify_signature hmac c2 pairs m2 t2 s2 = Ok tt ->
  request_date m1 d1 -> request_date m2 d2 -> d1 <> d2 ->
  exists kp x1 x2, collision hmac (secret_key kp) (secret_key kp) x1 x2.
Proof. exact date_covered. Qed.

(** Changing the value of one listed header is detected, unless the MAC collides.
    Full claim: any change of listed values.  Missing: several values changed
    together (refuted next). *)
Theorem C38_listed_header_is_covered_partial : forall hmac c1 c2 pairs m x v1 v2 h k ns sg t1 t2 s1 s2,
  has_header m "bluelink-signature-v1" h -> presents h k ns sg ->
  In x ns -> x <> "bluelink-date" -> lower x <> "bluelink-signature-v1" ->
  lower x <> "bluelink-date" ->
  has_header m x v1 -> v1 <> v2 ->
  verify_signature hmac c1 pairs m t1 s1 = Ok tt ->
  verify_signature hmac c2 pairs (hset x v2 m) t2 s2 = Ok tt ->
  exists kp y1 y2, collision hmac (secret_key kp) (secret_key kp) y1 y2.
Proof. exact header_covered. Qed.

(** A signature moved to another registered key id is rejected, unless the codes of
    two different texts under the two secrets are equal. *)
Theorem C38_key_id_is_covered : forall hmac c1 c2 pairs m1 m2 h1 h2 k1 k2 ns1 ns2 sg t1 t2 s1 s2,
  (forall k kp, lookup k pairs = Some kp -> key_id kp = k) ->
  has_header m1 "bluelink-signature-v1" h1 -> has_header m2 "bluelink-signature-v1" h2 ->
  presents h1 k1 ns1 sg -> presents h2 k2 ns2 sg -> k1 <> k2 ->
  verify_signature hmac c1 pairs m1 t1 s1 = Ok tt -> verify_signature hmac c2 pairs m2 t2 s2 = Ok tt ->
  exists kp1 kp2 x1 x2, lookup k1 pairs = Some kp1 /\ lookup k2 pairs = Some kp2 /\
    collision hmac (secret_key kp1) (secret_key kp2) x1 x2.
Proof. exact key_covered. Qed.

(** Two listed values changed together pass with the original signature, whatever
    the MAC: text moves from one header's value to the other's. *)
Theorem C38_joint_change_refuted : forall hmac checked kp, safe_key (key_id kp) ->
  exists v m1 m2,
    has_header m1 "a" "1,b=2" /\ has_header m1 "b" "3" /\ has_header m2 "a" "1" /\ has_header m2 "b" "2,b=3" /\
    has_header m1 "bluelink-signature-v1" v /\ has_header m2 "bluelink-signature-v1" v /\
    verify_signature hmac checked [(key_id kp, kp)] m1 1000 None = Ok tt /\
    verify_signature hmac checked [(key_id kp, kp)] m2 1000 None = Ok tt.
Proof.
  intros hmac checked kp Hk.
  set (m1 := [("a", "1,b=2"); ("b", "3"); ("bluelink-date", "1000")] : header_map).
  set (m2 := [("a", "1"); ("b", "2,b=3"); ("bluelink-date", "1000")] : header_map).
  set (t := signed_text (key_id kp) 1000 [("a", "1,b=2"); ("b", "3")]).
  set (v := "keyId=""" ++ key_id kp ++ """, headers=""bluelink-date a b"", signature="""
            ++ b64_encode (hmac (secret_key kp) t) ++ """").
  assert (D1: request_date m1 1000) by (apply date_spec; reflexivity).
  assert (D2: request_date m2 1000) by (apply date_spec; reflexivity).
  assert (C1: create_signature_header hmac kp m1 ["a"; "b"] 1000 = Ok (v, m1)).
  { apply create_spec. split; [reflexivity|]. exists 1000, [("a", "1,b=2"); ("b", "3")].
    split; [exact D1|]. split; [repeat (constructor; [split; [reflexivity|split; [reflexivity|apply header_text_visible; reflexivity]]|]); constructor|reflexivity]. }
  assert (C2: create_signature_header hmac kp m2 ["a"; "b"] 1000 = Ok (v, m2)).
  { apply create_spec. split; [reflexivity|]. exists 1000, [("a", "1"); ("b", "2,b=3")].
    split; [exact D2|]. split; [repeat (constructor; [split; [reflexivity|split; [reflexivity|apply header_text_visible; reflexivity]]|]); constructor|reflexivity]. }
  assert (W1: well_formed m1) by (repeat constructor; discriminate).
  assert (W2: well_formed m2) by (repeat constructor; discriminate).
  assert (N1: forall n, In n ["a"; "b"] -> lower n <> "bluelink-signature-v1")
    by (intros n [<-|[<-|[]]]; discriminate).
  assert (N2: forall n, In n ["a"; "b"] -> lower n = "bluelink-date" -> n = "bluelink-date")
    by (intros n [<-|[<-|[]]]; discriminate).
  assert (P: lookup (key_id kp) [(key_id kp, kp)] = Some kp) by (cbn; now rewrite String.eqb_refl).
  exists v, (hset "Bluelink-Signature-V1" v m1), (hset "Bluelink-Signature-V1" v m2).
  repeat (split; [reflexivity|]).
  split; [eapply (round_trip hmac checked _ kp m1) with (d := 1000)|eapply (round_trip hmac checked _ kp m2) with (d := 1000)];
    eauto; cbn; lia || reflexivity || (split; discriminate).
Qed.

Example C38_nonvacuous :
  verify_signature toy_mac false [("test-key-id", ex_kp)] ex_signed 1727895352 None = Ok tt /\
  presents (match lookup "bluelink-signature-v1" ex_signed with Some h => h | None => "" end)
    "test-key-id" ["bluelink-date"; "x-custom-header"; "content-type"]
    (b64_encode (toy_mac "test-secret_key"
       "test-key-id,bluelink-date=1727895652,x-custom-header=custom-value,content-type=a/b; c=d")) /\
  verify_signature toy_mac false [("test-key-id", ex_kp)] (hset "x-custom-header" "custom-value2" ex_signed) 1727895352 None
    = Err (InvalidSignature "Invalid signature").
Proof.
  split; [vm_compute; reflexivity|]. split; [|vm_compute; reflexivity].
  apply unpack_spec. vm_compute. reflexivity.
Qed.

(** *** C39 *)

(** An authentic request is accepted exactly within the skew of its date, and
    outside it is refused as expired.  Full claim: for every date.  Missing: dates
    less than a skew away from 0 or from 2^64 seconds (refuted below). *)
Theorem C39_freshness_window_partial : forall hmac checked pairs m k kp ns d fs now sk,
  authentic hmac pairs m k kp ns d fs -> skew_of sk <= d -> d + skew_of sk < two64 ->
  verify_signature hmac checked pairs m now sk =
    (if (d - skew_of sk <=? now) && (now <=? d + skew_of sk) then Ok tt
     else Err (InvalidSignature "Signature has expired")).
Proof.
  intros. rewrite (authentic_check hmac pairs m k kp ns d fs); auto using date_check_in_range.
Qed.

(** Whatever the date, an accepted request is not older or newer than the skew
    in a build with overflow checks. *)
Theorem C39_accepted_is_fresh : forall hmac pairs m now sk,
  verify_signature hmac true pairs m now sk = Ok tt ->
  exists d, request_date m d /\ d - skew_of sk <= now <= d + skew_of sk.
Proof.
  intros hmac pairs m now sk H. apply verify_ok_authentic in H. destruct H as (k & kp & ns & d & fs & A & C).
  exists d. split; [destruct A as (? & ? & _ & _ & _ & _ & D & _); exact D|].
  unfold date_check, add64, sub64 in C. destruct (d + skew_of sk <? two64); [|discriminate]. cbn [obind] in C.
  destruct (N.ltb_spec (d + skew_of sk) now); [discriminate|].
  destruct (skew_of sk <=? d); [|discriminate]. cbn [obind] in C.
  destruct (N.ltb_spec now (d - skew_of sk)); [discriminate|]. lia.
Qed.

(** A date smaller than the skew: the request made right now is refused or, with
    overflow checks, crashes the verifier. *)
Theorem C39_small_date_refuted : forall hmac pairs m k kp ns d fs sk,
  authentic hmac pairs m k kp ns d fs -> d < skew_of sk -> d + 2 * skew_of sk < two64 ->
  verify_signature hmac true pairs m d sk = Panic /\
  verify_signature hmac false pairs m d sk = Err (InvalidSignature "Signature has expired").
Proof.
  intros hmac pairs m k kp ns d fs sk A H1 H2. rewrite !(authentic_check hmac pairs m k kp ns d fs) by assumption.
  assert (H3: d + skew_of sk < two64) by lia.
  unfold date_check, add64, sub64. rewrite (proj2 (N.ltb_lt _ _) H3). cbn [obind].
  rewrite (proj2 (N.ltb_ge (d + skew_of sk) d)) by lia. rewrite (proj2 (N.leb_gt _ _) H1).
  split; [reflexivity|]. cbn [obind]. rewrite N.mod_small by lia.
  rewrite (proj2 (N.ltb_lt _ _)) by lia. reflexivity.
Qed.

(** A date within a skew of 2^64: refused as expired however early it is read. *)
Theorem C39_large_date_refuted : forall hmac pairs m k kp ns d fs sk,
  authentic hmac pairs m k kp ns d fs -> two64 <= d + skew_of sk -> skew_of sk < two64 -> d < two64 ->
  verify_signature hmac true pairs m d sk = Panic /\
  verify_signature hmac false pairs m d sk = Err (InvalidSignature "Signature has expired").
Proof.
  intros hmac pairs m k kp ns d fs sk A H1 H2 H3. rewrite !(authentic_check hmac pairs m k kp ns d fs) by assumption.
  unfold date_check, add64. rewrite (proj2 (N.ltb_ge _ _) H1). split; [reflexivity|]. cbn [obind].
  replace (d + skew_of sk) with ((d + skew_of sk - two64) + 1 * two64) by lia.
  rewrite N.mod_add by discriminate. rewrite N.mod_small by lia.
  rewrite (proj2 (N.ltb_lt _ _)) by lia. reflexivity.
Qed.

Example C39_nonvacuous :
  (exists ns fs, authentic toy_mac [("test-key-id", ex_kp)] ex_signed "test-key-id" ex_kp ns 1727895652 fs) /\
  verify_signature toy_mac true [("test-key-id", ex_kp)] ex_signed 1727895953 None
    = Err (InvalidSignature "Signature has expired") /\
  verify_signature toy_mac true [("test-key-id", ex_kp)] ex_signed 1727895351 None
    = Err (InvalidSignature "Signature has expired") /\
  verify_signature toy_mac true [("test-key-id", ex_kp)] ex_signed 1727895351 (Some 301) = Ok tt.
Proof.
  split; [|split; [|split]]; [|vm_compute; reflexivity..].
  assert (V: verify_signature toy_mac true [("test-key-id", ex_kp)] ex_signed 1727895652 None = Ok tt) by (vm_compute; reflexivity).
  apply verify_ok_authentic in V. destruct V as (k & kp & ns & d & fs & A & _). exists ns, fs.
  assert (d = 1727895652). { destruct A as (? & ? & _ & _ & _ & _ & D & _). eapply request_date_fun; [exact D|].
    apply date_spec. vm_compute. reflexivity. }
  assert (k = "test-key-id" /\ kp = ex_kp).
  { destruct A as (h & sg & _ & _ & _ & L & _). cbn in L. destruct (String.eqb_spec k "test-key-id"); [|discriminate].
    split; congruence. }
  destruct H0; subst. exact A.
Qed.

(** *** C40 *)

(** Verification always answers when every '=' of the signature header is followed
    by two bytes of its part, and the date is in range.  Full claim: for every
    header.  Missing: headers with shorter values (refuted next). *)
Theorem C40_verification_answers_partial : forall hmac checked pairs m now sk,
  (forall h, has_header m "bluelink-signature-v1" h -> values_quoted h) ->
  (forall d, request_date m d -> skew_of sk <= d /\ d + skew_of sk < two64) ->
  verify_signature hmac checked pairs m now sk <> Panic.
Proof. exact verify_no_panic. Qed.

(** Signing always answers. *)
Theorem C40_signing_answers : forall hmac kp m ns now, create_signature_header hmac kp m ns now <> Panic.
Proof. exact create_no_panic. Qed.

(** Any caller crashes the verifier with a key id value of fewer than two bytes;
    no key is needed. *)
Theorem C40_short_value_refuted : forall hmac checked pairs m v p1 p2 now sk,
  has_header m "bluelink-signature-v1" ("keyId=" ++ v ++ "," ++ p1 ++ "," ++ p2) ->
  header_text ("keyId=" ++ v ++ "," ++ p1 ++ "," ++ p2) ->
  (String.length v < 2)%nat -> has_char "," v = false -> has_char "=" v = false ->
  has_char "," p1 = false -> has_char "," p2 = false ->
  verify_signature hmac checked pairs m now sk = Panic.
Proof. exact short_key_panics. Qed.

Example C40_nonvacuous :
  values_quoted "keyId=""k"", headers=""d"", signature=""s""" /\
  verify_signature toy_mac true [] [("bluelink-signature-v1", "keyId=""k"", headers=""d"", signature=""s""")] 5000 None
    = Err (InvalidSignature "Invalid key ID") /\
  verify_signature toy_mac true [] [("bluelink-signature-v1", "keyId="""",headers,signature")] 0 None
    = Err (InvalidSignature headers_part_error) /\
  verify_signature toy_mac true [] [("bluelink-signature-v1", "keyId=,,")] 0 None = Panic.
Proof.
  split; [|repeat split; vm_compute; reflexivity].
  intros a b H.
  repeat (destruct a as [|? a]; [first [discriminate H | inversion H; subst; eexists _, _, _; split; [reflexivity|split; discriminate]]|
    cbn in H; inversion H; subst; clear H; match goal with E : _ = a ++ _ |- _ => rename E into H end]).
  all: discriminate H.
Qed.

(** *** C41 *)

(** Equal signed texts have equal key id, date and headers, when key ids and header
    values have no comma.  Full claim: for all header values.  Missing: values with
    commas (refuted next). *)
Theorem C41_unambiguous_partial : forall k1 k2 d1 d2 f1 f2,
  has_char "," k1 = false -> has_char "," k2 = false ->
  Forall safe_field f1 -> Forall safe_field f2 ->
  signed_text k1 d1 f1 = signed_text k2 d2 f2 -> k1 = k2 /\ d1 = d2 /\ f1 = f2.
Proof. exact (text_inj toy_mac). Qed.

(** Key id and date are determined whatever the header values. *)
Theorem C41_key_and_date_determined : forall k1 k2 d1 d2 f1 f2,
  has_char "," k1 = false -> has_char "," k2 = false ->
  signed_text k1 d1 f1 = signed_text k2 d2 f2 -> k1 = k2 /\ d1 = d2.
Proof. intros k1 k2 d1 d2 f1 f2 H1 H2 H. destruct (text_key_date toy_mac k1 k2 d1 d2 f1 f2 H1 H2 H) as (A & B & _). auto. Qed.

(** The text that is signed is the text of the specification. *)
Theorem C41_signed_text_is_message : forall kp m ns t, create_message kp m ns = Ok t <->
  exists d fs, request_date m d /\ fields m ns fs /\ t = signed_text (key_id kp) d fs.
Proof. exact message_spec. Qed.

(** One header with a comma in its value signs the same text as two headers. *)
Theorem C41_comma_refuted : forall kp d n1 v1 n2 v2,
  exists f1 f2, f1 <> f2 /\ f1 = [(n1, v1 ++ "," ++ n2 ++ "=" ++ v2)] /\ f2 = [(n1, v1); (n2, v2)] /\
    signed_text (key_id kp) d f1 = signed_text (key_id kp) d f2.
Proof.
  intros. eexists _, _. split; [|split; [reflexivity|split; [reflexivity|]]]; [discriminate|].
  unfold signed_text. cbn. rewrite !sapp_nil_r. now rewrite !sapp_assoc.
Qed.

(** Such headers are accepted by the signer: both requests get the same message. *)
Theorem C41_same_message_refuted : forall kp,
  create_message kp [("a", "1,b=2"); ("bluelink-date", "7")] ["a"] =
  create_message kp [("a", "1"); ("b", "2"); ("bluelink-date", "7")] ["a"; "b"].
Proof. reflexivity. Qed.

Example C41_nonvacuous :
  Forall safe_field [("x-custom-header", "a=b"); ("host", "h")] /\
  create_message ex_kp [("host", "h"); ("x-custom-header", "a=b"); ("bluelink-date", "+0007")] ["X-Custom-Header"; "host"]
  = Ok (signed_text "test-key-id" 7 [("x-custom-header", "a=b"); ("host", "h")]).
Proof. split; [repeat constructor|reflexivity]. Qed.

Print Assumptions C37_signing_succeeds.
Print Assumptions C37_signed_headers.
Print Assumptions C37_signed_date_is_signer_time.
Print Assumptions C37_round_trip_partial.
Print Assumptions C37_key_id_separators_refuted.
Print Assumptions C37_capitalised_date_refuted.
Print Assumptions C38_accepted_is_authentic.
Print Assumptions C38_date_is_covered.
Print Assumptions C38_listed_header_is_covered_partial.
Print Assumptions C38_key_id_is_covered.
Print Assumptions C38_joint_change_refuted.
Print Assumptions C39_freshness_window_partial.
Print Assumptions C39_accepted_is_fresh.
Print Assumptions C39_small_date_refuted.
Print Assumptions C39_large_date_refuted.
Print Assumptions C40_verification_answers_partial.
Print Assumptions C40_signing_answers.
Print Assumptions C40_short_value_refuted.
Print Assumptions C41_unambiguous_partial.
Print Assumptions C41_key_and_date_determined.
Print Assumptions C41_signed_text_is_message.
Print Assumptions C41_comma_refuted.
Print Assumptions C41_same_message_refuted.
