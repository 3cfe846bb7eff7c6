(** Model of libs/runtime/signature/src/sigv1.rs (Bluelink Signature v1).

    Header maps are association lists from lower-case header names to the bytes
    of the header's first value.  [http::HeaderMap::get] lower-cases the name it
    is given and answers nothing for a name with forbidden bytes; a well-formed
    map has no such key, so the lookup below answers the same.
    Header values reach the code through [HeaderValue::to_str], which fails unless
    every byte is visible ASCII or a tab; so all text handled here is ASCII and
    Rust's Unicode-aware [trim] and [to_lowercase] act bytewise.
    HMAC-SHA256 is a parameter; base64 (url-safe, no padding) is modelled because
    the round trip depends on its alphabet and strictness. *)
From Verif Require Import Base Text.
Open Scope string_scope.
Local Open Scope N_scope.

(** errors.rs 8-22 *)
Inductive sig_error :=
| InvalidSignature (msg : string)
| SignatureHeadingMissing
| DateHeaderMissing
| CustomHeadersMissing (names : list string).

(** errors.rs 86-103 *)
Inductive msg_error :=
| MInvalidDateHeader
| MDateHeaderMissing
| MInvalidCustomHeader
| MCustomHeadersMissing (names : list string)
| MUnknownError (msg : string).

(** signature/src/errors.rs 63-83: From<SignatureMessageCreationError> for SignatureVerificationError *)
Definition sig_error_of (e : msg_error) : sig_error :=
  match e with
  | MDateHeaderMissing => DateHeaderMissing
  | MCustomHeadersMissing l => CustomHeadersMissing l
  | MInvalidDateHeader => InvalidSignature "Date header is invalid"
  | MInvalidCustomHeader => InvalidSignature "Custom header is invalid"
  | MUnknownError m => InvalidSignature m
  end.

(** signature/src/errors.rs 146-163: From<SignatureVerificationError> for SignatureMessageCreationError *)
Definition msg_error_of (e : sig_error) : msg_error :=
  match e with
  | DateHeaderMissing => MDateHeaderMissing
  | CustomHeadersMissing l => MCustomHeadersMissing l
  | InvalidSignature m => MUnknownError m
  | SignatureHeadingMissing => MDateHeaderMissing
  end.

(** [Result::map_err], as in sigv1.rs 44-299 *)
Definition map_err {E F A} (f : E -> F) (x : outcome E A) : outcome F A :=
  match x with Ok a => Ok a | Err e => Err (f e) | Panic => Panic end.

(** types.rs 3-8 *)
Record key_pair := { key_id : string; secret_key : string }.
(** types.rs 11-18 *)
Record sig_parts := { sp_key_id : string; sp_signature : string; sp_headers : list string }.

(** [http::HeaderMap], the argument of sigv1.rs 44 and 119 *)
Definition header_map := smap string.

(** [http::HeaderMap::get] and [insert]; see the note at the top. sigv1.rs 229-299. *)
Definition hget (n : string) (m : header_map) : option string := lookup (lower n) m.
(** sigv1.rs 119-147: [insert] of the date *)
Definition hset (n v : string) (m : header_map) : header_map := insert (lower n) v m.

(** [http::HeaderValue::to_str]: every byte is visible ASCII (32..126) or a tab *)
Definition visible (c : ascii) : bool :=
  let n := N_of_ascii c in ((32 <=? n) && (n <=? 126)) || (n =? 9).
(** [HeaderValue::to_str], sigv1.rs 229-257, 285-299 *)
Definition to_str (v : string) : option string := if all_chars visible v then Some v else None.

(** [http::header::ToStrError]'s text. (sigv1.rs 229-257) *)
Definition to_str_error : string := "failed to convert header to a str".

(** sigv1.rs 15-21 *)
Definition SIGNATURE_HEADER_NAME := "Bluelink-Signature-V1".
(** sigv1.rs 18 *)
Definition DATE_HEADER_NAME := "Bluelink-Date".
(** sigv1.rs 21 *)
Definition DEFAULT_CLOCK_SKEW : N := 300.

(** The size of [u64], the type of the times in sigv1.rs 60-80 *)
Definition two64 : N := 18446744073709551616.

(** [str::parse::<u64>]: optional '+', at least one digit, no overflow. *)
Definition parse_u64 (s : string) : option N :=
  let ds := match s with String "+" r => r | _ => s end in
  match ds with
  | EmptyString => None
  | _ => match digits_val 0 ds with
         | Some v => if v <? two64 then Some v else None
         | None => None
         end
  end.

(** u64 addition and subtraction.  [checked] tells whether the build has
    overflow checks on (Rust debug profile) or wraps (release profile). *)
Definition add64 {E} (checked : bool) (a b : N) : outcome E N :=
  if a + b <? two64 then Ok (a + b)
  else if checked then Panic else Ok ((a + b) mod two64).
(** [u64] subtraction, which panics when it underflows if it is checked and wraps otherwise: sigv1.rs 60-80 *)
Definition sub64 {E} (checked : bool) (a b : N) : outcome E N :=
  if b <=? a then Ok (a - b)
  else if checked then Panic else Ok ((a + two64 - b) mod two64).

(** ** base64, URL-safe alphabet without padding
    (base64 crate, [BASE64_URL_SAFE_NO_PAD]: strict about trailing bits) *)
Definition b64_chr (n : N) : ascii :=
  if n <? 26 then ascii_of_N (n + 65)
  else if n <? 52 then ascii_of_N (n + 71)
  else if n <? 62 then ascii_of_N (n - 4)
  else if n =? 62 then "-"%char else "_"%char.
(** The url-safe alphabet, read: sigv1.rs 259-283 *)
Definition b64_val (c : ascii) : option N :=
  let n := N_of_ascii c in
  if (65 <=? n) && (n <=? 90) then Some (n - 65)
  else if (97 <=? n) && (n <=? 122) then Some (n - 71)
  else if (48 <=? n) && (n <=? 57) then Some (n + 4)
  else if n =? 45 then Some 62
  else if n =? 95 then Some 63
  else None.

(** [URL_SAFE_NO_PAD.encode], sigv1.rs 259-266 *)
Fixpoint b64_encode (s : string) : string :=
  match s with
  | EmptyString => ""
  | String a EmptyString =>
      let x := N_of_ascii a in
      String (b64_chr (x / 4)) (String (b64_chr ((x mod 4) * 16)) "")
  | String a (String b EmptyString) =>
      let x := N_of_ascii a in let y := N_of_ascii b in
      String (b64_chr (x / 4)) (String (b64_chr ((x mod 4) * 16 + y / 16))
        (String (b64_chr ((y mod 16) * 4)) ""))
  | String a (String b (String c r)) =>
      let x := N_of_ascii a in let y := N_of_ascii b in let z := N_of_ascii c in
      String (b64_chr (x / 4)) (String (b64_chr ((x mod 4) * 16 + y / 16))
        (String (b64_chr ((y mod 16) * 4 + z / 64)) (String (b64_chr (z mod 64)) (b64_encode r))))
  end.

(** [URL_SAFE_NO_PAD.decode], sigv1.rs 268-283 *)
Fixpoint b64_decode (s : string) : option string :=
  match s with
  | EmptyString => Some ""
  | String a EmptyString => None
  | String a (String b EmptyString) =>
      match b64_val a, b64_val b with
      | Some x, Some y =>
          if y mod 16 =? 0 then Some (String (ascii_of_N (x * 4 + y / 16)) "") else None
      | _, _ => None
      end
  | String a (String b (String c EmptyString)) =>
      match b64_val a, b64_val b, b64_val c with
      | Some x, Some y, Some z =>
          if z mod 4 =? 0
          then Some (String (ascii_of_N (x * 4 + y / 16))
                      (String (ascii_of_N ((y mod 16) * 16 + z / 4)) ""))
          else None
      | _, _, _ => None
      end
  | String a (String b (String c (String d r))) =>
      match b64_val a, b64_val b, b64_val c, b64_val d, b64_decode r with
      | Some x, Some y, Some z, Some w, Some t =>
          Some (String (ascii_of_N (x * 4 + y / 16))
                 (String (ascii_of_N ((y mod 16) * 16 + z / 4))
                   (String (ascii_of_N ((z mod 4) * 64 + w)) t)))
      | _, _, _, _, _ => None
      end
  end.

(** ** Unpacking the header *)

(** [trim]: within visible ASCII and tab, the white space is space and tab. (sigv1.rs 149-227) *)
Definition is_ws (c : ascii) : bool := Ascii.eqb c " " || Ascii.eqb c "009".

(** The slice [v[1..v.len() - 1]] at lines 185, 204 and 225: panics when the
    value is shorter than two bytes (length 0 underflows, length 1 gives 1..0). *)
Definition strip_quotes {E} (v : string) : outcome E string :=
  if (String.length v <? 2)%nat then Panic else Ok (substring 1 (String.length v - 2) v).

(** sigv1.rs 169-186 *)
Definition unpack_key_id (part : string) : outcome sig_error string :=
  match split_on "=" part with
  | [n; v] =>
      if String.eqb (trim is_ws n) "keyId" then strip_quotes v
      else Err (InvalidSignature "Invalid key ID header part format")
  | _ => Err (InvalidSignature "Invalid key ID header part format")
  end.

(** sigv1.rs 188-208 *)
Definition headers_part_error : string := "Invalid ""headers"" header part format".

(** sigv1.rs 189-208 *)
Definition unpack_headers (part : string) : outcome sig_error (list string) :=
  match split_on "=" part with
  | [n; v] =>
      if String.eqb (trim is_ws n) "headers"
      then omap (split_on " ") (strip_quotes v)
      else Err (InvalidSignature headers_part_error)
  | _ => Err (InvalidSignature headers_part_error)
  end.

(** sigv1.rs 210-227 *)
Definition unpack_signature_value (part : string) : outcome sig_error string :=
  match split_on "=" part with
  | [n; v] =>
      if String.eqb (trim is_ws n) "signature" then strip_quotes v
      else Err (InvalidSignature "Invalid signature header part format")
  | _ => Err (InvalidSignature "Invalid signature header part format")
  end.

(** sigv1.rs 149-167 *)
Definition unpack_signature (h : string) : outcome sig_error sig_parts :=
  match split_on "," h with
  | [p0; p1; p2] =>
      let! k := unpack_key_id p0 in
      let! hs := unpack_headers p1 in
      let! s := unpack_signature_value p2 in
      Ok {| sp_key_id := k; sp_signature := s; sp_headers := hs |}
  | _ => Err (InvalidSignature "Invalid signature header format")
  end.

(** sigv1.rs 285-297 *)
Definition extract_date_from_header (m : header_map) : outcome sig_error N :=
  match hget DATE_HEADER_NAME m with
  | Some v =>
      match to_str v with
      | None => Err (InvalidSignature "Invalid date header")
      | Some s => match parse_u64 s with
                  | Some d => Ok d
                  | None => Err (InvalidSignature "Invalid date")
                  end
      end
  | None => Err DateHeaderMissing
  end.

(** The iterator body at sigv1.rs 237-249 for one custom header name. *)
Definition custom_header (m : header_map) (n : string) : outcome msg_error string :=
  match hget n m with
  | Some v => match to_str v with
              | Some s => Ok ("," ++ lower n ++ "=" ++ s)
              | None => Err MInvalidCustomHeader
              end
  | None => Err (MCustomHeadersMissing [n])
  end.

(** Collecting an iterator of results stops at the first error. sigv1.rs 229-257. *)
Fixpoint collect_headers (m : header_map) (ns : list string) : outcome msg_error string :=
  match ns with
  | [] => Ok ""
  | n :: ns' =>
      let! a := custom_header m n in
      let! r := collect_headers m ns' in
      Ok (a ++ r)
  end.

(** sigv1.rs 229-257 *)
Definition create_message (kp : key_pair) (m : header_map) (names : list string)
  : outcome msg_error string :=
  let! date := map_err msg_error_of (extract_date_from_header m) in
  let! custom := collect_headers m
    (filter (fun n => negb (String.eqb n (lower DATE_HEADER_NAME))) names) in
  Ok (key_id kp ++ ",bluelink-date=" ++ dec date ++ custom).

Section Mac.
(** HMAC-SHA256: key bytes, message bytes, code bytes. *)
Variable hmac : string -> string -> string.

(** sigv1.rs 259-266 *)
Definition sign_message (kp : key_pair) (msg : string) : string :=
  b64_encode (hmac (secret_key kp) msg).

(** sigv1.rs 268-283 ([verify_slice] compares the full code) *)
Definition verify_message (kp : key_pair) (msg signature : string) : outcome sig_error unit :=
  match b64_decode signature with
  | None => Err (InvalidSignature "Invalid signature")
  | Some code =>
      if String.eqb (hmac (secret_key kp) msg) code then Ok tt
      else Err (InvalidSignature "Invalid signature")
  end.

(** sigv1.rs 119-147.  Returns the header value and the updated headers. *)
Definition create_signature_header (kp : key_pair) (m : header_map) (names : list string) (now : N)
  : outcome msg_error (string * header_map) :=
  let m' := match hget DATE_HEADER_NAME m with
            | None => hset DATE_HEADER_NAME (dec now) m
            | Some _ => m
            end in
  let! msg := create_message kp m' names in
  let signature := sign_message kp msg in
  let final_names := lower DATE_HEADER_NAME :: map lower names in
  Ok ("keyId=""" ++ key_id kp ++ """, headers=""" ++ join " " final_names
       ++ """, signature=""" ++ signature ++ """", m').

(** sigv1.rs 44-82 *)
Definition verify_signature (checked : bool) (pairs : smap key_pair) (m : header_map) (now : N)
  (clock_skew : option N) : outcome sig_error unit :=
  match hget SIGNATURE_HEADER_NAME m with
  | None => Err SignatureHeadingMissing
  | Some hv =>
      match to_str hv with
      | None => Err (InvalidSignature to_str_error)
      | Some h =>
          let! parts := unpack_signature h in
          match lookup (sp_key_id parts) pairs with
          | None => Err (InvalidSignature "Invalid key ID")
          | Some kp =>
              let! msg := map_err sig_error_of (create_message kp m (sp_headers parts)) in
              let! _ := verify_message kp msg (sp_signature parts) in
              let skew := match clock_skew with Some s => s | None => DEFAULT_CLOCK_SKEW end in
              let! date := extract_date_from_header m in
              let! hi := add64 checked date skew in
              if hi <? now then Err (InvalidSignature "Signature has expired")
              else
                let! lo := sub64 checked date skew in
                if now <? lo then Err (InvalidSignature "Signature has expired") else Ok tt
          end
      end
  end.
End Mac.
