(** Vocabulary of C159 and C160 *)
From Verif Require Import Base Chars IdModel IdSpec XrayModel TraceModel.
Local Open Scope list_scope.

(** The id of a request: what its first x-request-id header says if that is readable, or else the new one. *)
Definition has_id (hs : headers) (generated id : text) : Prop :=
  (first_header (chars "x-request-id") id hs /\ plain id) \/
  (id = generated /\ forall v, first_header (chars "x-request-id") v hs -> ~ plain v).
(** The client that a request names, if it names one *)
Definition names_client (hs : headers) (agent : text) : Prop :=
  (first_header (chars "user-agent") agent hs /\ plain agent) \/
  (agent = chars "Unknown User Agent" /\ forall v, first_header (chars "user-agent") v hs -> ~ plain v).
(** The fields of that name *)
Definition recorded (name value : text) (es : list entry) : Prop := In (Field name value) es.
(** Two requests differ in no header of that name. *)
Definition same_header (name : text) (hs hs' : headers) : Prop :=
  forall v, first_header name v hs <-> first_header name v hs'.
(** An application that would install a subscriber for the process *)
Definition installs (a : application) : Prop := a_tracing a = true /\ a_test a = false.
