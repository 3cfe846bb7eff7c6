(** Strings in JSON texts, after RFC 8259, section 7 *)
From Verif Require Import Base Chars.
Local Open Scope N_scope.
Local Open Scope list_scope.

Inductive hex_digit : N -> N -> Prop :=
| HexDecimal c n : n < 10 -> c = 48 + n -> hex_digit c n
| HexLower c n : 10 <= n < 16 -> c = 87 + n -> hex_digit c n
| HexUpper c n : 10 <= n < 16 -> c = 55 + n -> hex_digit c n.
(** Four digits after [\u] *)
Inductive unit_text : text -> N -> Prop :=
| Unit a b c d w x y z n : hex_digit a w -> hex_digit b x -> hex_digit c y -> hex_digit d z ->
    n = w * 4096 + x * 256 + y * 16 + z -> unit_text [92; 117; a; b; c; d] n.
(** How a character can be written: as itself, with a short escape, by its number, or as a pair of
    surrogates *)
Inductive char_text : text -> N -> Prop :=
| AsItself c : 32 <= c -> c <> 34 -> c <> 92 -> char_text [c] c
| Short e c : In (e, c) [(34, 34); (92, 92); (47, 47); (98, 8); (102, 12); (110, 10); (114, 13); (116, 9)] -> char_text [92; e] c
| Numbered s n : unit_text s n -> n < 55296 \/ 57344 <= n -> char_text s n
| Paired s t h l n : unit_text s h -> unit_text t l -> 55296 <= h < 56320 -> 56320 <= l < 57344 ->
    n = 65536 + (h - 55296) * 1024 + (l - 56320) -> char_text (s ++ t) n.
(** A string, between its quotes *)
Inductive string_text : text -> text -> Prop :=
| NoChars : string_text [] []
| Chars s c t cs : char_text s c -> string_text t cs -> string_text (s ++ t) (c :: cs).
(** An object with one member, a string *)
Definition object_text (name : text) (value : text) (t : text) : Prop :=
  exists s v, t = chars "{" ++ [34] ++ s ++ [34] ++ chars ":" ++ [34] ++ v ++ [34] ++ chars "}" /\ string_text s name /\ string_text v value.
