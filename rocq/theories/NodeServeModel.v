(** An application of the Node SDK, libs/runtime/sdk/node/src/lib.rs (below: N) 265-345: the server of
    ServeModel.v with handlers that are functions of JavaScript, as in SdkModel.v *)
From Verif Require Import Base Chars IdModel RouteModel TraceModel ServeModel.
From Verif Require SdkModel.
Local Open Scope list_scope.

Section Node.
Variable name_ok value_ok : text -> bool.
Variable error_json : text -> text.
(** The function registered for each handler, N 304-311, and for which of two ready ends [select!]
    decides, N 322-331 *)
Variable function : text -> SdkModel.js_request -> SdkModel.js_call.
Variable tie : text -> http_request (text * SdkModel.source) -> bool.

(** [Method::as_str] (third party: http), N 191-193 *)
Definition method_text (v : verb) : text :=
  match v with
  | Get => chars "GET" | Head => chars "HEAD" | Options => chars "OPTIONS" | Trace => chars "TRACE"
  | Post => chars "POST" | Put => chars "PUT" | Patch => chars "PATCH" | Delete => chars "DELETE"
  end.
(** N 315: the request as the layers of the server leave it.  The rest of a request is the whole URI and
    its body. *)
Definition axum_request (q : http_request (text * SdkModel.source)) : SdkModel.request :=
  let '(v, _, (uri, b)) := q_rest q in SdkModel.mk_request (method_text v) uri (q_headers q) b.
(** N 314-333.  [Panic]: the task of the connection ends, and no answer is sent. *)
Definition node_code (name : text) (q : http_request (text * SdkModel.source)) : outcome unit SdkModel.reply * list text :=
  (SdkModel.answer name_ok value_ok error_json
     (SdkModel.node_result (function name (SdkModel.from_axum_req (axum_request q))) (tie name q)), []).
End Node.
