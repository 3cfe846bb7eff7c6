(** The id of a request, libs/runtime/core/src/request.rs, which is also the id of the
    WebSocket connection that the request asks for (websocket.rs 94-110). *)
From Verif Require Import Base Chars WsModel.
Local Open Scope list_scope.

(** The headers of a request in their order, with names in lower case (third-party: http's HeaderMap; request.rs 12-14) *)
Definition headers := list (text * list N).
(** consts.rs 41 *)
Definition request_id_header : text := chars "x-request-id".
(** [HeaderMap::get] gives the first of several values (third-party; request.rs 14) *)
Fixpoint get_header (name : text) (hs : headers) : option (list N) :=
  match hs with
  | [] => None
  | (n, v) :: hs' => if text_eqb n name then Some v else get_header name hs'
  end.
(** [HeaderValue::to_str]: only visible ASCII, spaces and tabs (third-party; request.rs 15) *)
Definition to_str (v : list N) : option text :=
  if forallb (fun b => ((32 <=? b) && (b <? 127) || (b =? 9))%N%bool) v then Some v else None.
(** request.rs 11-18; [generated] is what nanoid gives at 16 *)
Definition request_id (hs : headers) (generated : text) : text :=
  match get_header request_id_header hs with
  | Some v => match to_str v with Some t => t | None => generated end
  | None => generated
  end.

Section Messages.
(** As in WsModel.v: [serde_json::from_str], the route key and the routes *)
Variable parse : text -> option Value.value.
Variable key : text.
Variable routes : text -> bool.
(** websocket.rs 94-110: a request for a connection *)
Definition connects (hs : headers) (generated : text) (s s' : state) : Prop :=
  step parse key routes s [EOpen (s_next s) (request_id hs generated)] s'.
End Messages.
