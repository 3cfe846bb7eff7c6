(** Vocabulary for C138 and C139: documents that mean the same in JSON and in YAML. *)
From Verif Require Import Base Chars SubstModel WfYamlModel WfYamlSpec.
Local Open Scope list_scope.

(** [member key w v]: somewhere in [v] a mapping has [w] under the key *)
Definition member (key : text) (w v : yaml) : Prop := exists m, inside (YMap m) v /\ In (Some key, w) m.
Definition not_array (w : yaml) : Prop := forall l, w <> YSeq l.

(** Keys under which values are free-form, are an object, name objects, list objects *)
Definition free_keys : list text := map chars ["payloadTemplate"; "result"; "inputs"; "annotations"; "protocols"; "protocol"]%string.
Definition object_keys : list text := map chars ["cors"; "sharedHandlerConfig"]%string.
Definition name_keys : list text := map chars ["guards"; "externalEvents"; "variables"]%string.
Definition list_keys : list text := map chars ["and"; "or"; "decisions"; "parallelBranches"; "retry"; "catch"]%string.
Definition source_keys : list text := map chars ["bucket"; "dbStreamId"; "dataStreamId"]%string.

(** A document that both readers should take in the same way: no key is twice in a mapping, whole
    numbers fit in 64 bits, no text is itself the JSON of a text, no array stands for an object, free-form texts have no references in
    them, and the configuration of a source of events names one source. *)
Definition portable (json_text : text -> option text) (v : yaml) : Prop :=
  one_each v /\
  (forall z, inside (YInt z) v -> (- 2 ^ 63 <= z < 2 ^ 63)%Z) /\
  (forall t, inside (YStr t) v -> json_text t = None) /\
  (forall key w, In key object_keys -> member key w v -> not_array w) /\
  (forall key m name w, In key name_keys -> member key (YMap m) v -> In (name, w) m -> not_array w) /\
  (forall key l w, In key list_keys -> member key (YSeq l) v -> In w l -> not_array w) /\
  (forall key w t, In key free_keys -> member key w v -> inside (YStr t) w -> contains (chars "${") t = false) /\
  (forall m x y, member (chars "sourceConfiguration") (YMap m) v -> In x source_keys -> In y source_keys -> In x (keys_of m) -> In y (keys_of m) -> x = y).
