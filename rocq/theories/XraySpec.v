(** Vocabulary for the properties of X-Ray trace ids *)
From Verif Require Import Base Chars.
Local Open Scope list_scope.
Local Open Scope N_scope.

(** A number of hexadecimal digits, with small letters, stands for a number *)
Inductive digit_means : N -> N -> Prop :=
| digit_dec d : d <= 9 -> digit_means (48 + d) d
| digit_hex d : 10 <= d <= 15 -> digit_means (87 + d) d.
Inductive hex_means : text -> N -> Prop :=
| hm_none : hex_means [] 0
| hm_more t v c d : hex_means t v -> digit_means c d -> hex_means (t ++ [c]) (16 * v + d).
(** Digits with letters of either size *)
Inductive digit_any : N -> N -> Prop :=
| any_small c d : digit_means c d -> digit_any c d
| any_capital d : 10 <= d <= 15 -> digit_any (55 + d) d.
Inductive hex_any : text -> N -> Prop :=
| ha_none : hex_any [] 0
| ha_more t v c d : hex_any t v -> digit_any c d -> hex_any (t ++ [c]) (16 * v + d).
(** Three parts between dashes, the first of no importance, perhaps with a dash at the end (needed when the last part is empty);
    the other two together are the digits, perhaps after a plus. *)
Definition dashless (t : text) : Prop := ~ In 45 t.
Definition trace_text (t : text) (n : N) : Prop :=
  exists v a b ds, dashless v /\ dashless a /\ dashless b /\
    (t = v ++ [45] ++ a ++ [45] ++ b /\ b <> [] \/ t = v ++ [45] ++ a ++ [45] ++ b ++ [45]) /\
    (a ++ b = ds \/ a ++ b = 43 :: ds) /\ ds <> [] /\ hex_any ds n.
