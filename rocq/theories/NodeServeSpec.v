(** Vocabulary for an application of the Node SDK *)
From Verif Require Import Base Chars IdModel RouteModel RouteSpec.
From Verif Require SdkModel SdkSpec.
Local Open Scope list_scope.

(** The request with this method, URI, headers and body; its method is written in capitals *)
Definition the_request (v : verb) (uri : text) (heads : headers) (b : SdkModel.source) (rq : SdkModel.request) : Prop :=
  names (SdkModel.rq_method rq) v /\ (forall c, In c (SdkModel.rq_method rq) -> (65 <= c <= 90)%N) /\
  SdkModel.rq_uri rq = uri /\ SdkModel.rq_headers rq = heads /\ SdkModel.rq_body rq = b.
(** What a client gets for the outcome of a call: the response, if HTTP has a form for it, and nothing
    otherwise; for a failure its message, as a success *)
Inductive sent (name_ok value_ok : text -> bool) (error_json : text -> text) : SdkModel.result -> outcome unit SdkModel.reply -> Prop :=
| sent_response r p : SdkSpec.sendable name_ok value_ok r -> SdkSpec.carries r p -> sent name_ok value_ok error_json (SdkModel.Returned r) (Ok p)
| sent_nothing r : ~ SdkSpec.sendable name_ok value_ok r -> sent name_ok value_ok error_json (SdkModel.Returned r) Panic
| sent_failure m p : SdkModel.rp_status p = 200%N -> SdkModel.rp_body p = error_json m -> sent name_ok value_ok error_json (SdkModel.Failed m) (Ok p).
