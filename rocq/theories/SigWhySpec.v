(** Vocabulary for C136: the reason a signed request is refused.  Every rule names everything
    that is in order before the first thing that is not. *)
From Verif Require Import Base Text SigModel SigSpec.
Open Scope string_scope.
Local Open Scope N_scope.

Definition comma_free (s : string) : Prop := has_char "," s = false.
(** Three parts between commas *)
Definition three_parts (h p0 p1 p2 : string) : Prop :=
  h = p0 ++ "," ++ p1 ++ "," ++ p2 /\ comma_free p0 /\ comma_free p1 /\ comma_free p2.

(** What is wrong with the text of the signature header *)
Inductive malformed (h : string) : string -> Prop :=
| Bad_count : (forall p0 p1 p2, ~ three_parts h p0 p1 p2) -> malformed h "Invalid signature header format"
| Bad_key p0 p1 p2 : three_parts h p0 p1 p2 -> (forall k, ~ part "keyId" k p0) -> malformed h "Invalid key ID header part format"
| Bad_headers p0 p1 p2 k : three_parts h p0 p1 p2 -> part "keyId" k p0 -> (forall v, ~ part "headers" v p1) ->
    malformed h "Invalid ""headers"" header part format"
| Bad_signature p0 p1 p2 k v : three_parts h p0 p1 p2 -> part "keyId" k p0 -> part "headers" v p1 -> (forall s, ~ part "signature" s p2) ->
    malformed h "Invalid signature header part format".

(** What is wrong with the date header *)
Inductive bad_date (m : header_map) : option string -> Prop :=
| Date_missing : (forall v, ~ has_header m "bluelink-date" v) -> bad_date m None
| Date_unreadable v : has_header m "bluelink-date" v -> ~ header_text v -> bad_date m (Some "Invalid date header")
| Date_no_number v : has_header m "bluelink-date" v -> header_text v -> (forall d, ~ request_date m d) -> bad_date m (Some "Invalid date").

(** The first listed header, other than the date, that is missing ([true]) or unreadable *)
Definition first_bad (m : header_map) (ns : list string) (n : string) (missing : bool) : Prop :=
  exists before after, ns = (before ++ n :: after)%list /\ n <> "bluelink-date" /\
    (forall b, In b before -> b = "bluelink-date" \/ exists v, has_header m b v /\ header_text v) /\
    (if missing then forall v, ~ has_header m n v else exists v, has_header m n v /\ ~ header_text v).

Section Why.
Variable hmac : string -> string -> string.
Variable pairs : smap key_pair.
Variable m : header_map.
Variable now : N.
Variable sk : option N.

Inductive refusal : sig_error -> Prop :=
| No_signature : (forall h, ~ has_header m "bluelink-signature-v1" h) -> refusal SignatureHeadingMissing
| Unreadable h : has_header m "bluelink-signature-v1" h -> ~ header_text h -> refusal (InvalidSignature "failed to convert header to a str")
| Malformed h e : has_header m "bluelink-signature-v1" h -> header_text h -> malformed h e -> refusal (InvalidSignature e)
| Unknown_key h k ns sg : has_header m "bluelink-signature-v1" h -> header_text h -> presents h k ns sg -> lookup k pairs = None ->
    refusal (InvalidSignature "Invalid key ID")
| No_date h k kp ns sg o : has_header m "bluelink-signature-v1" h -> header_text h -> presents h k ns sg -> lookup k pairs = Some kp ->
    bad_date m o -> refusal (match o with None => DateHeaderMissing | Some e => InvalidSignature e end)
| Bad_header h k kp ns sg d n b : has_header m "bluelink-signature-v1" h -> header_text h -> presents h k ns sg -> lookup k pairs = Some kp ->
    request_date m d -> first_bad m ns n b ->
    refusal (if b then CustomHeadersMissing [n] else InvalidSignature "Custom header is invalid")
| Forged h k kp ns sg d fs : has_header m "bluelink-signature-v1" h -> header_text h -> presents h k ns sg -> lookup k pairs = Some kp ->
    request_date m d -> fields m ns fs -> b64_decode sg <> Some (hmac (secret_key kp) (signed_text (key_id kp) d fs)) ->
    refusal (InvalidSignature "Invalid signature")
| Stale k kp ns d fs : authentic hmac pairs m k kp ns d fs -> now < d - skew_of sk \/ d + skew_of sk < now ->
    refusal (InvalidSignature "Signature has expired").

(** The reason a request cannot be signed: its own date header (the signer's time is used
    when there is none) or a listed header *)
Inductive unsigned (ns : list string) : msg_error -> Prop :=
| Unsigned_date e : bad_date (dated m now) (Some e) -> unsigned ns (MUnknownError e)
| Unsigned_header d n b : request_date (dated m now) d -> first_bad (dated m now) ns n b ->
    unsigned ns (if b then MCustomHeadersMissing [n] else MInvalidCustomHeader).
End Why.
