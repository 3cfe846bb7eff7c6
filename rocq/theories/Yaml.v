(** The values of a document *)
From Verif Require Import Base Chars.
Local Open Scope list_scope.

(** A value of a YAML document as yaml_rust2 delivers it, or of a JSON document as serde_json does:
    a real keeps its text, and a YAML key that is not a string is [None].  Aliases and bad values
    are left out. *)
Inductive yaml :=
| YStr (t : text) | YInt (z : Z) | YReal (t : text) | YBool (b : bool) | YNull
| YSeq (l : list yaml) | YMap (m : list (option text * yaml)).
