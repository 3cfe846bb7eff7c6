(** A running HTTP server with the handlers that were registered: what answers a request,
    libs/runtime/core/src/application.rs (below: A) 166-210, 291-338 and 349-437, put together from
    RouteModel.v and TraceModel.v. *)
From Verif Require Import Base Chars IdModel RouteModel TraceModel.
From Verif Require ApiModel.
Local Open Scope list_scope.

Section Serve.
(** The path matcher, as in RouteModel.v *)
Variable resolve : list text -> text -> option text.
Variable body R : Type.
Variable status : R -> N.
(** axum's answers: to a request that a layer rejects, to one for no route, and to one for a route
    without its method *)
Variable rejected not_found not_allowed : R.
(** A request, with its method and path *)
Definition http_request := request (verb * text * body).
(** What answers at the routes of setup, A 176-206 *)
Variable health_check web_socket : http_request -> R * list text.
(** The code of the handlers, by the name of the handler; each was registered for the definition at
    its position (A 349-391) *)
Variable code : text -> http_request -> R * list text.

(** axum, for the router served in A 322-334.  Layers are around what answers without a route, too.
    Simplified: that the body of an answer to HEAD is dropped is left out. *)
Definition answer_by (r : router) (hs : list ApiModel.handler) (q : http_request) : R * list text :=
  let '(v, path, _) := q_rest q in
  match dispatch resolve r v path with
  | Called (User k) => match nth_error hs k with Some h => code (ApiModel.h_handler h) q | None => (not_found, []) end
  | Called Health => health_check q
  | Called WebSocket => web_socket q
  | NotAllowed => (not_allowed, [])
  | NotFound => (not_found, [])
  end.
(** A 170, 303-308: the layers around it; [on], [new] and [generated] as in TraceModel.v *)
Definition serve (c : ApiModel.api_config) (r : router) (hs : list ApiModel.handler) (on : bool) (p : platform) (new : N) (generated : text)
    (heads : headers) (line peer : text) (v : verb) (path : text) (b : body) : R * list entry :=
  server _ R status rejected (ApiModel.ac_tracing c) on p new generated (answer_by r hs) (incoming _ heads line peer (v, path, b)) None.
End Serve.
