(** Vocabulary for the signature properties C37-C41, written without the model's
    functions (only header maps, key pairs and byte strings are shared). *)
From Verif Require Import Base Text SigModel.
Open Scope string_scope.
Local Open Scope N_scope.

(** Bytes allowed in a (lower-case) HTTP header name. *)
Definition name_byte (c : ascii) : bool :=
  let n := N_of_ascii c in
  ((97 <=? n) && (n <=? 122)) || ((48 <=? n) && (n <=? 57)) ||
  has_char c "!#$%&'*+-.^_`|~".
(** What a header map of the http crate satisfies. *)
Definition well_formed (m : header_map) : Prop :=
  Forall (fun kv => fst kv <> "" /\ all_chars name_byte (fst kv) = true) m.

(** A text that can be put in a header value and read back: bytes from space to tilde, and tabs. *)
Definition header_text (s : string) : Prop :=
  forall i c, String.get i s = Some c -> 32 <= N_of_ascii c <= 126 \/ N_of_ascii c = 9.

(** The header named [n], whatever the letter case. *)
Definition has_header (m : header_map) (n v : string) : Prop := lookup (lower n) m = Some v.

(** The request's date in seconds: the number written in its date header. *)
Definition request_date (m : header_map) (d : N) : Prop :=
  exists s, has_header m "bluelink-date" s /\ header_text s /\ d < two64 /\
    exists digits, digits <> "" /\ (s = digits \/ s = "+" ++ digits) /\ digits_val 0 digits = Some d.

(** A signature header value presents key id [k], header names [ns] and signature
    [sg]: three comma-separated name=value parts whose values are enclosed by
    one byte on each side (blanks around a part's name are allowed). *)
Definition blank (s : string) : Prop := all_chars (fun c => Ascii.eqb c " " || Ascii.eqb c "009") s = true.
Definition part (name value text : string) : Prop :=
  exists l r q1 q2, blank l /\ blank r /\
    text = l ++ name ++ r ++ "=" ++ String q1 (value ++ String q2 "") /\
    has_char "," (String q1 (value ++ String q2 "")) = false /\
    has_char "=" (String q1 (value ++ String q2 "")) = false.
Definition presents (h k : string) (ns : list string) (sg : string) : Prop :=
  exists p0 p1 p2, h = p0 ++ "," ++ p1 ++ "," ++ p2 /\
    part "keyId" k p0 /\ part "headers" (join " " ns) p1 /\ part "signature" sg p2 /\
    ns <> [] /\ Forall (fun n => has_char " " n = false) ns.

(** The (name, value) pairs the listed names stand for; the date is not repeated. *)
Definition fields (m : header_map) (ns : list string) (fs : list (string * string)) : Prop :=
  Forall2 (fun n f => fst f = lower n /\ has_header m n (snd f) /\ header_text (snd f))
    (filter (fun n => if string_dec n "bluelink-date" then false else true) ns) fs.

(** The text that is signed. *)
Definition signed_text (k : string) (date : N) (fs : list (string * string)) : string :=
  k ++ ",bluelink-date=" ++ dec date ++ concat_all (map (fun f => "," ++ fst f ++ "=" ++ snd f) fs).

(** The request carries a signature, made with the secret registered for the key
    id it presents, of its own date and listed headers. *)
Definition authentic (hmac : string -> string -> string) (pairs : smap key_pair) (m : header_map)
  (k : string) (kp : key_pair) (ns : list string) (d : N) (fs : list (string * string)) : Prop :=
  exists h sg, has_header m "bluelink-signature-v1" h /\ header_text h /\ presents h k ns sg /\
    lookup k pairs = Some kp /\ request_date m d /\ fields m ns fs /\
    b64_decode sg = Some (hmac (secret_key kp) (signed_text (key_id kp) d fs)).

(** Two different texts with the same code. *)
Definition collision (hmac : string -> string -> string) (s1 s2 t1 t2 : string) : Prop :=
  t1 <> t2 /\ hmac s1 t1 = hmac s2 t2.

(** Every '=' of the text is followed by two more bytes before the next comma. *)
Definition values_quoted (h : string) : Prop :=
  forall a b, h = a ++ "=" ++ b ->
    exists x y r, b = String x (String y r) /\ x <> ","%char /\ y <> ","%char.

(** The allowed clock skew, 300 seconds unless configured. *)
Definition skew_of (o : option N) : N := match o with Some s => s | None => 300 end.

(** The headers with the signer's time as date, when they have none. *)
Definition dated (m : header_map) (now : N) : header_map :=
  match lookup "bluelink-date" m with None => insert "bluelink-date" (dec now) m | Some _ => m end.

(** A key id that fits in the header: printable, no separator of the format. *)
Definition safe_key (k : string) : Prop := header_text k /\ has_char "," k = false /\ has_char "=" k = false.

(** A signed header whose value has no comma (names never have a comma or '='). *)
Definition safe_field (f : string * string) : Prop :=
  has_char "," (fst f) = false /\ has_char "=" (fst f) = false /\ has_char "," (snd f) = false.
