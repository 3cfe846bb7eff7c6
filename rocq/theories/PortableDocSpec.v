(** Vocabulary for C139: blueprint documents that mean the same in JSON and in YAML. *)
From Verif Require Import Base Chars WfYamlModel WfYamlSpec PortableSpec.
Local Open Scope list_scope.

(** The types of resources that only the JSON reader knows *)
Definition json_only_types : list text := map chars ["celerity/config"; "celerity/bucket"; "celerity/topic"; "celerity/queue"]%string.
(** Its values are portable, its transform is not an array, no resource is of a type that only one of the
    readers knows, and its metadata, if it has any, has a shared handler configuration. *)
Definition portable_document (json_text : text -> option text) (m : list (option text * yaml)) : Prop :=
  portable json_text (YMap m) /\
  (forall v, In (Some (chars "transform"), v) m -> not_array v) /\
  (forall rs name d t, In (Some (chars "resources"), YMap rs) m -> In (Some name, YMap d) rs -> In (Some (chars "type"), YStr t) d -> ~ In t json_only_types) /\
  (forall v, In (Some (chars "metadata"), v) m -> exists mm w, v = YMap mm /\ In (Some (chars "sharedHandlerConfig"), YMap w) mm).
