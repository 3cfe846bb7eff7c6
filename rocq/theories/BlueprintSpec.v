(** Vocabulary for C56, C65 and C67. *)
From Verif Require Import Base Chars BlueprintModel.
Local Open Scope list_scope.

(** The resource types of the runtime *)
Definition supported_types : list text :=
  map chars ["celerity/api"; "celerity/consumer"; "celerity/schedule"; "celerity/handler"; "celerity/handlerConfig";
             "celerity/workflow"; "celerity/config"; "celerity/bucket"; "celerity/topic"; "celerity/queue"]%string.
(** The keys of a resource the runtime reads *)
Definition resource_keys : list text := map chars ["type"; "metadata"; "spec"; "description"; "linkSelector"]%string.

(** The mapping [m] has the value [v] under [key] (the first of that name) *)
Definition has (key : text) (v : yaml) (m : list (option text * yaml)) : Prop :=
  exists pre post, m = pre ++ (Some key, v) :: post /\ forall w, ~ In (Some key, w) pre.
(** A resource whose type is a text that is none of the supported types *)
Definition unsupported (body : yaml) : Prop :=
  exists m t, body = YMap m /\ has (chars "type") (YStr t) m /\ ~ In t supported_types.
(** [d'] is [d] with one more resource *)
Inductive extended (body : yaml) : yaml -> yaml -> Prop :=
| ext_intro pre rpre name rpost post :
    extended body (YMap (pre ++ (Some (chars "resources"), YMap (rpre ++ rpost)) :: post))
                  (YMap (pre ++ (Some (chars "resources"), YMap (rpre ++ (Some name, body) :: rpost)) :: post)).
(** [d'] is [d] with any number of unsupported resources added, each of them meeting [P] *)
Inductive extended_many (P : yaml -> Prop) : yaml -> yaml -> Prop :=
| em_none d : extended_many P d d
| em_more body d d' d'' : unsupported body -> P body -> extended_many P d d' -> extended body d' d'' -> extended_many P d d''.
(** The type is given first and the resource has no key the runtime does not read *)
Definition type_first (body : yaml) : Prop :=
  exists t rest, body = YMap ((Some (chars "type"), YStr t) :: rest) /\
    forall key v, In (key, v) rest -> exists k, key = Some k /\ In k resource_keys.
(** The resource named [name] in the document *)
Definition resource_in (d : yaml) (name : text) (m : list (option text * yaml)) : Prop :=
  exists top rs, d = YMap top /\ In (Some (chars "resources"), YMap rs) top /\ In (Some name, YMap m) rs.

(** Documents that are written the same way for both readers: every key is a text and occurs once,
    the type comes first and is one of the six types both readers know, every other key of a
    resource is one of the documented ones with a value of its kind, and the spec is there. *)
Definition once_keys (m : list (option text * yaml)) : Prop :=
  NoDup (map fst m) /\ ~ In None (map fst m).
Definition both_types : list text :=
  map chars ["celerity/api"; "celerity/consumer"; "celerity/schedule"; "celerity/handler"; "celerity/handlerConfig"; "celerity/workflow"]%string.
Definition plain_resource (body : yaml) : Prop :=
  exists t rest, body = YMap ((Some (chars "type"), YStr t) :: rest) /\ In t both_types /\
    once_keys ((Some (chars "type"), YStr t) :: rest) /\
    (forall key v, In (key, v) rest ->
       (key = Some (chars "description") /\ exists u, v = YStr u) \/
       (In key [Some (chars "metadata"); Some (chars "spec"); Some (chars "linkSelector")] /\ exists m, v = YMap m)) /\
    exists s, In (Some (chars "spec"), s) rest.
Definition plain_document (d : yaml) : Prop :=
  exists top, d = YMap top /\ once_keys top /\
    (exists t, In (Some (chars "transform"), YStr t) top) /\
    (exists t, In (Some (chars "version"), YStr t) top) /\
    (exists rs, In (Some (chars "resources"), YMap rs) top) /\
    (forall key v, In (key, v) top ->
       (In key [Some (chars "version"); Some (chars "transform")] /\ exists u, v = YStr u) \/
       (key = Some (chars "variables") /\ exists m, v = YMap m) \/
       (key = Some (chars "metadata") /\ exists m w, v = YMap m /\ In (Some (chars "sharedHandlerConfig"), YMap w) m) \/
       (key = Some (chars "resources") /\ exists rs, v = YMap rs /\ once_keys rs /\
          forall name body, In (name, body) rs -> plain_resource body)).
