(** The event that tells a client of a lost message,
    /repo/libs/runtime/ws-registry/src/message_helpers.rs.  Texts are lists of code points. *)
From Verif Require Import Base Chars Bytes.
Local Open Scope N_scope.
Local Open Scope list_scope.

(** serde_json's [format_escaped_str] (third-party: the table of the escapes it writes). used by message_helpers.rs 9-12 *)
Definition hex_lower (n : N) : N := if n <? 10 then 48 + n else 87 + n.
(** serde_json as above; message_helpers.rs 9-12 *)
Definition escape (c : N) : text :=
  if c =? 34 then [92; 34]
  else if c =? 92 then [92; 92]
  else if c =? 8 then [92; 98]
  else if c =? 9 then [92; 116]
  else if c =? 10 then [92; 110]
  else if c =? 12 then [92; 102]
  else if c =? 13 then [92; 114]
  else if c <? 32 then [92; 117; 48; 48; hex_lower (c / 16); hex_lower (c mod 16)]
  else [c].
(** serde_json as above; message_helpers.rs 9-12 *)
Definition json_string (t : text) : text := 34 :: flat_map escape t ++ [34].
(** message_helpers.rs 9-12: [json!({"messageId": id}).to_string()] *)
Definition payload (id : text) : text := chars "{" ++ json_string (chars "messageId") ++ chars ":" ++ json_string id ++ chars "}".
(** message_helpers.rs 6-22 *)
Definition lost_event (id : text) : list N := 1 :: 3 :: utf8 (payload id).
