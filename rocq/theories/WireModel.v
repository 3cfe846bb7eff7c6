(** What the local runtime API and the nodes of a cluster say to each other in JSON:
    the (mostly derived) [Serialize] and [Deserialize] instances of
    /repo/libs/runtime/core/src/types.rs, /repo/libs/runtime/workflow/src/types.rs,
    /repo/libs/runtime/ws-registry/src/types.rs and /repo/libs/runtime/ws-redis/src/pubsub.rs,
    and the handlers of runtime_local_api.rs that use them.

    Documents are trees: the text of a document (serde_json's parser and printer), its nesting
    limit (128), axum's body limit and its check of the content type are not modelled.  An object
    is the list of its members in the order of the text, repeated keys included.  Why a document
    is refused is not modelled. *)
From Verif Require Import Base Json LocalApiModel ClusterModel.
Open Scope string_scope.
Local Open Scope list_scope.

(** * Derived [Deserialize] (third-party: serde, serde_json). core/src/types.rs 8-187, workflow/src/types.rs 16-133, ws-registry/src/types.rs 3-34 *)
Definition obnd {A B} (x : option A) (f : A -> option B) : option B := match x with Some a => f a | None => None end.
Notation "'let?' x := a 'in' b" := (obnd a (fun x => b)) (at level 200, x pattern, a at level 100, b at level 200).

(** core/src/types.rs 8-187, workflow/src/types.rs 16-133, ws-registry/src/types.rs 3-34 *)
Definition occurs (k : string) (m : list (string * json)) : nat := length (filter (fun e => String.eqb k (fst e)) m).
(** The values of the declared fields of a struct: from an object, in which a declared field may
    occur once and others are ignored, or from an array that has the fields in their order
    ([visit_map] and [visit_seq] of the derived visitor). (core/src/types.rs 8-187, workflow/src/types.rs 16-133, ws-registry/src/types.rs 3-34) *)
Definition fields (names : list string) (v : json) : option (list (option json)) :=
  match v with
  | JObj m => if forallb (fun k => Nat.leb (occurs k m) 1) names then Some (map (fun k => lookup k m) names) else None
  | JArr l => if Nat.eqb (length l) (length names) then Some (map Some l) else None
  | _ => None
  end.
(** A field that must be there. core/src/types.rs 8-187, workflow/src/types.rs 16-133, ws-registry/src/types.rs 3-34. *)
Definition req {A} (f : json -> option A) (o : option json) : option A := obnd o f.
(** A field of type [Option<T>]: left out or null, it is [None]. core/src/types.rs 8-187, workflow/src/types.rs 16-133, ws-registry/src/types.rs 3-34. *)
Definition opt {A} (f : json -> option A) (o : option json) : option (option A) :=
  match o with None | Some JNull => Some None | Some v => option_map Some (f v) end.
(** [String], [bool], [u16], [u64] *)
Definition r_str (v : json) : option string := match v with JStr s => Some s | _ => None end.
(** core/src/types.rs 8-187, workflow/src/types.rs 16-133, ws-registry/src/types.rs 3-34 *)
Definition r_bool (v : json) : option bool := match v with JBool b => Some b | _ => None end.
(** core/src/types.rs 8-187, workflow/src/types.rs 16-133, ws-registry/src/types.rs 3-34: the integer types *)
Definition r_uint (bits : Z) (v : json) : option Z :=
  match v with JNum (NInt z) => if (Z.leb 0 z && Z.ltb z (2 ^ bits))%Z then Some z else None | _ => None end.
(** The elements of an array, in order: core/src/types.rs 8-187, workflow/src/types.rs 16-133, ws-registry/src/types.rs 3-34 *)
Fixpoint all {A B} (f : A -> option B) (l : list A) : option (list B) :=
  match l with
  | [] => Some []
  | x :: r => let? y := f x in let? ys := all f r in Some (y :: ys)
  end.
(** [Vec<T>]. (core/src/types.rs 8-187, workflow/src/types.rs 16-133, ws-registry/src/types.rs 3-34) *)
Definition r_list {A} (f : json -> option A) (v : json) : option (list A) := match v with JArr l => all f l | _ => None end.
(** [HashMap<String, T>]: the last of several members with the same key is kept. (core/src/types.rs 42-64, 147-152) *)
Fixpoint gather {A} (f : json -> option A) (m : list (string * json)) (r : smap A) : option (smap A) :=
  match m with
  | [] => Some r
  | (k, v) :: m' => let? a := f v in gather f m' (insert k a r)
  end.
(** core/src/types.rs 42-64, 147-152 *)
Definition r_map {A} (f : json -> option A) (v : json) : option (smap A) := match v with JObj m => gather f m [] | _ => None end.
(** [serde_json::Value]: any document, of the members of an object with the same key the last. (workflow/src/types.rs 16-48) *)
Fixpoint value_of (v : json) : json :=
  match v with
  | JArr l => JArr (map value_of l)
  | JObj m => JObj (fold_left (fun r e => insert (fst e) (snd e) r) (map (fun e => (fst e, value_of (snd e))) m) [])
  | _ => v
  end.
(** workflow/src/types.rs 16-48 *)
Definition r_value (v : json) : option json := Some (value_of v).

(** * Derived [Serialize]. ws-registry/src/types.rs 14-16: a list of texts *)
Definition w_strs (l : list string) : json := JArr (map JStr l).
(** core/src/types.rs 42-64: a map *)
Definition w_map {A} (f : A -> json) (m : smap A) : json := JObj (map (fun e => (fst e, f (snd e))) m).
(** [skip_serializing_if = "Option::is_none"]. (core/src/types.rs 8-187, workflow/src/types.rs 16-133, ws-registry/src/types.rs 3-34) *)
Definition w_opt {A} (k : string) (f : A -> json) (o : option A) : list (string * json) :=
  match o with Some a => [(k, f a)] | None => [] end.
(** core/src/types.rs 8-187, workflow/src/types.rs 16-133, ws-registry/src/types.rs 3-34: an integer *)
Definition w_uint (z : Z) : json := JNum (NInt z).

(** * Events (core/src/types.rs 9-117) *)

(** 19-31 *)
Inductive event_type := THttpRequest | TWsMessage | TConsumerMessage | TScheduleMessage | TEventMessage.
(** 42-66 *)
Record http_event := {
  he_method : string; he_path : string; he_route : string;
  he_path_params : smap string; he_query : smap string; he_multi_query : smap (list string);
  he_headers : smap string; he_multi_headers : smap (list string);
  he_body : option string; he_source_ip : string; he_request_id : string }.
(** 68-79 *)
Record ws_event := { we_route : string; we_connection : string; we_source_ip : string; we_request_id : option string; we_message : string }.
(** 87-96 *)
Record consumer_message := { cm_id : string; cm_body : string; cm_source : string; cm_attributes : json; cm_vendor : json }.
(** 81-85 *)
Record consumer_event := { ce_messages : list consumer_message; ce_vendor : json }.
(** 98-106 *)
Record schedule_event := { se_schedule_id : string; se_message_id : string; se_schedule : string; se_vendor : json }.
(** 108-120 *)
Record message_event := { me_body : string; me_source : string; me_id : option string; me_attributes : option json; me_vendor : json }.
(** 33-40; the [Box] is transparent *)
Inductive payload := PHttp (e : http_event) | PWs (e : ws_event) | PConsumer (e : consumer_event) | PSchedule (e : schedule_event) | PEvent (e : message_event).
(** 9-17, without the id, which LocalApiModel keeps *)
Record event_body := { eb_type : event_type; eb_tag : string; eb_time : Z; eb_data : payload }.

(** 19-31 *)
Definition w_type (t : event_type) : json :=
  JStr (match t with
        | THttpRequest => "httpRequest" | TWsMessage => "wsMessage" | TConsumerMessage => "consumerMessage"
        | TScheduleMessage => "scheduleMessage" | TEventMessage => "eventMessage" end).
(** 42-66 *)
Definition w_http_event (e : http_event) : json :=
  JObj ([("method", JStr (he_method e)); ("path", JStr (he_path e)); ("route", JStr (he_route e));
         ("pathParams", w_map JStr (he_path_params e)); ("queryParams", w_map JStr (he_query e));
         ("multiQueryParams", w_map w_strs (he_multi_query e)); ("headers", w_map JStr (he_headers e));
         ("multiHeaders", w_map w_strs (he_multi_headers e))]
        ++ w_opt "body" JStr (he_body e)
        ++ [("sourceIp", JStr (he_source_ip e)); ("requestId", JStr (he_request_id e))]).
(** 68-79 *)
Definition w_ws_event (e : ws_event) : json :=
  JObj ([("route", JStr (we_route e)); ("connectionId", JStr (we_connection e)); ("sourceIp", JStr (we_source_ip e))]
        ++ w_opt "requestId" JStr (we_request_id e) ++ [("message", JStr (we_message e))]).
(** 87-96 *)
Definition w_consumer_message (e : consumer_message) : json :=
  JObj [("messageId", JStr (cm_id e)); ("body", JStr (cm_body e)); ("source", JStr (cm_source e));
        ("messageAttributes", cm_attributes e); ("vendor", cm_vendor e)].
(** 81-85 *)
Definition w_consumer_event (e : consumer_event) : json :=
  JObj [("messages", JArr (map w_consumer_message (ce_messages e))); ("vendor", ce_vendor e)].
(** 98-106 *)
Definition w_schedule_event (e : schedule_event) : json :=
  JObj [("scheduleId", JStr (se_schedule_id e)); ("messageId", JStr (se_message_id e));
        ("schedule", JStr (se_schedule e)); ("vendor", se_vendor e)].
(** 108-120 *)
Definition w_message_event (e : message_event) : json :=
  JObj ([("body", JStr (me_body e)); ("source", JStr (me_source e))] ++ w_opt "messageId" JStr (me_id e)
        ++ w_opt "messageAttributes" (fun v => v) (me_attributes e) ++ [("vendor", me_vendor e)]).
(** 33-40: externally tagged *)
Definition w_payload (p : payload) : json :=
  match p with
  | PHttp e => JObj [("HttpRequestEventData", w_http_event e)]
  | PWs e => JObj [("WsMessageEventData", w_ws_event e)]
  | PConsumer e => JObj [("ConsumerMessageEventData", w_consumer_event e)]
  | PSchedule e => JObj [("ScheduleMessageEventData", w_schedule_event e)]
  | PEvent e => JObj [("EventMessageEventData", w_message_event e)]
  end.
(** 9-17 *)
Definition w_event (e : event event_body) : json :=
  JObj [("id", JStr (ev_id e)); ("eventType", w_type (eb_type (ev_body e))); ("handlerTag", JStr (eb_tag (ev_body e)));
        ("timestamp", w_uint (eb_time (ev_body e))); ("data", w_payload (eb_data (ev_body e)))].

(** 19-31: the name of a variant, or an object that has null under it *)
Definition r_type (v : json) : option event_type :=
  let? t := match v with JStr t => Some t | JObj [(t, JNull)] => Some t | _ => None end in
  if String.eqb t "httpRequest" then Some THttpRequest
  else if String.eqb t "wsMessage" then Some TWsMessage
  else if String.eqb t "consumerMessage" then Some TConsumerMessage
  else if String.eqb t "scheduleMessage" then Some TScheduleMessage
  else if String.eqb t "eventMessage" then Some TEventMessage
  else None.
(** 42-66 *)
Definition r_http_event (v : json) : option http_event :=
  let? l := fields ["method"; "path"; "route"; "pathParams"; "queryParams"; "multiQueryParams"; "headers"; "multiHeaders"; "body"; "sourceIp"; "requestId"] v in
  match l with
  | [a; b; c; d; e; f; g; h; i; j; k] =>
      let? a := req r_str a in let? b := req r_str b in let? c := req r_str c in
      let? d := req (r_map r_str) d in let? e := req (r_map r_str) e in let? f := req (r_map (r_list r_str)) f in
      let? g := req (r_map r_str) g in let? h := req (r_map (r_list r_str)) h in
      let? i := opt r_str i in let? j := req r_str j in let? k := req r_str k in
      Some {| he_method := a; he_path := b; he_route := c; he_path_params := d; he_query := e; he_multi_query := f;
              he_headers := g; he_multi_headers := h; he_body := i; he_source_ip := j; he_request_id := k |}
  | _ => None
  end.
(** 68-79 *)
Definition r_ws_event (v : json) : option ws_event :=
  let? l := fields ["route"; "connectionId"; "sourceIp"; "requestId"; "message"] v in
  match l with
  | [a; b; c; d; e] =>
      let? a := req r_str a in let? b := req r_str b in let? c := req r_str c in let? d := opt r_str d in let? e := req r_str e in
      Some {| we_route := a; we_connection := b; we_source_ip := c; we_request_id := d; we_message := e |}
  | _ => None
  end.
(** 87-96 *)
Definition r_consumer_message (v : json) : option consumer_message :=
  let? l := fields ["messageId"; "body"; "source"; "messageAttributes"; "vendor"] v in
  match l with
  | [a; b; c; d; e] =>
      let? a := req r_str a in let? b := req r_str b in let? c := req r_str c in let? d := req r_value d in let? e := req r_value e in
      Some {| cm_id := a; cm_body := b; cm_source := c; cm_attributes := d; cm_vendor := e |}
  | _ => None
  end.
(** 81-85 *)
Definition r_consumer_event (v : json) : option consumer_event :=
  let? l := fields ["messages"; "vendor"] v in
  match l with
  | [a; b] => let? a := req (r_list r_consumer_message) a in let? b := req r_value b in Some {| ce_messages := a; ce_vendor := b |}
  | _ => None
  end.
(** 98-106 *)
Definition r_schedule_event (v : json) : option schedule_event :=
  let? l := fields ["scheduleId"; "messageId"; "schedule"; "vendor"] v in
  match l with
  | [a; b; c; d] =>
      let? a := req r_str a in let? b := req r_str b in let? c := req r_str c in let? d := req r_value d in
      Some {| se_schedule_id := a; se_message_id := b; se_schedule := c; se_vendor := d |}
  | _ => None
  end.
(** 108-120 *)
Definition r_message_event (v : json) : option message_event :=
  let? l := fields ["body"; "source"; "messageId"; "messageAttributes"; "vendor"] v in
  match l with
  | [a; b; c; d; e] =>
      let? a := req r_str a in let? b := req r_str b in let? c := opt r_str c in let? d := opt r_value d in let? e := req r_value e in
      Some {| me_body := a; me_source := b; me_id := c; me_attributes := d; me_vendor := e |}
  | _ => None
  end.
(** 33-40: an object with one member, named after the variant *)
Definition r_payload (v : json) : option payload :=
  match v with
  | JObj [(t, w)] =>
      if String.eqb t "HttpRequestEventData" then option_map PHttp (r_http_event w)
      else if String.eqb t "WsMessageEventData" then option_map PWs (r_ws_event w)
      else if String.eqb t "ConsumerMessageEventData" then option_map PConsumer (r_consumer_event w)
      else if String.eqb t "ScheduleMessageEventData" then option_map PSchedule (r_schedule_event w)
      else if String.eqb t "EventMessageEventData" then option_map PEvent (r_message_event w)
      else None
  | _ => None
  end.
(** 9-17 *)
Definition r_event (v : json) : option (event event_body) :=
  let? l := fields ["id"; "eventType"; "handlerTag"; "timestamp"; "data"] v in
  match l with
  | [a; b; c; d; e] =>
      let? a := req r_str a in let? b := req r_type b in let? c := req r_str c in let? d := req (r_uint 64) d in let? e := req r_payload e in
      Some {| ev_id := a; ev_body := {| eb_type := b; eb_tag := c; eb_time := d; eb_data := e |} |}
  | _ => None
  end.

(** * Results (core/src/types.rs 130-184) *)

(** 170-175: the id of the message and the error *)
Definition failure := (string * option string)%type.
(** 138-146: the variants, with 148-153, 155-161, 163-168 and 177-183 in them *)
Inductive result_data :=
| DHttp (status : Z) (headers : smap string) (body : string)
| DWebSocket (success : bool) (error : option string)
| DProcessing (success : bool) (failures : option (list failure))
| DScheduled (success : bool) (error : option string)
| DEvent (success : bool) (error : option string).
(** 130-136, without the id *)
Record result := { rs_data : result_data; rs_context : option json }.

(** 155-161, 177-183 *)
Definition w_simple (b : bool) (e : option string) : json := JObj ([("success", JBool b)] ++ w_opt "errorMessage" JStr e).
(** 170-175 *)
Definition w_failure (f : failure) : json := JObj ([("messageId", JStr (fst f))] ++ w_opt "errorMessage" JStr (snd f)).
(** 138-146: untagged *)
Definition w_data (d : result_data) : json :=
  match d with
  | DHttp s h b => JObj [("status", w_uint s); ("headers", w_map JStr h); ("body", JStr b)]
  | DWebSocket b e | DScheduled b e | DEvent b e => w_simple b e
  | DProcessing b fs => JObj ([("success", JBool b)] ++ w_opt "failues" (fun l => JArr (map w_failure l)) fs)
  end.
(** 130-136 *)
Definition w_result (id : string) (r : result) : json :=
  JObj ([("eventId", JStr id); ("data", w_data (rs_data r))] ++ w_opt "context" (fun v => v) (rs_context r)).

(** 148-153 *)
Definition r_http (v : json) : option result_data :=
  let? l := fields ["status"; "headers"; "body"] v in
  match l with
  | [a; b; c] => let? a := req (r_uint 16) a in let? b := req (r_map r_str) b in let? c := req r_str c in Some (DHttp a b c)
  | _ => None
  end.
(** 155-161, 177-183 *)
Definition r_simple (v : json) : option (bool * option string) :=
  let? l := fields ["success"; "errorMessage"] v in
  match l with
  | [a; b] => let? a := req r_bool a in let? b := opt r_str b in Some (a, b)
  | _ => None
  end.
(** 170-175 *)
Definition r_failure (v : json) : option failure :=
  let? l := fields ["messageId"; "errorMessage"] v in
  match l with
  | [a; b] => let? a := req r_str a in let? b := opt r_str b in Some (a, b)
  | _ => None
  end.
(** 163-168 *)
Definition r_processing (v : json) : option result_data :=
  let? l := fields ["success"; "failues"] v in
  match l with
  | [a; b] => let? a := req r_bool a in let? b := opt (r_list r_failure) b in Some (DProcessing a b)
  | _ => None
  end.
(** The first that can be read. core/src/types.rs 137-145 (untagged). *)
Definition or_else {A} (x y : option A) : option A := match x with Some _ => x | None => y end.
(** 138-146: untagged, the variants are tried in their order *)
Definition r_data (v : json) : option result_data :=
  or_else (r_http v)
  (or_else (option_map (fun x => DWebSocket (fst x) (snd x)) (r_simple v))
  (or_else (r_processing v)
  (or_else (option_map (fun x => DScheduled (fst x) (snd x)) (r_simple v))
           (option_map (fun x => DEvent (fst x) (snd x)) (r_simple v))))).
(** 130-136 *)
Definition r_result (v : json) : option (string * result) :=
  let? l := fields ["eventId"; "data"; "context"] v in
  match l with
  | [a; b; c] => let? a := req r_str a in let? b := req r_data b in let? c := opt r_value c in Some (a, {| rs_data := b; rs_context := c |})
  | _ => None
  end.

(** workflow/src/types.rs 16-30, 41-47: the events and results of a workflow, whose data are any document *)
Record wf_event_body := { wb_tag : string; wb_time : Z; wb_data : json }.
(** workflow/src/types.rs 41-48 *)
Record wf_result := { wr_data : json; wr_context : option json }.
(** workflow/src/types.rs 16-39 *)
Definition w_wf_event (e : event wf_event_body) : json :=
  JObj [("id", JStr (ev_id e)); ("eventType", JStr "executeStep"); ("handlerTag", JStr (wb_tag (ev_body e)));
        ("timestamp", w_uint (wb_time (ev_body e))); ("data", wb_data (ev_body e))].
(** workflow/src/types.rs 27-31 *)
Definition r_step_type (v : json) : option unit :=
  match v with JStr t | JObj [(t, JNull)] => if String.eqb t "executeStep" then Some tt else None | _ => None end.
(** workflow/src/types.rs 16-39 *)
Definition r_wf_event (v : json) : option (event wf_event_body) :=
  let? l := fields ["id"; "eventType"; "handlerTag"; "timestamp"; "data"] v in
  match l with
  | [a; b; c; d; e] =>
      let? a := req r_str a in let? _ := req r_step_type b in let? c := req r_str c in let? d := req (r_uint 64) d in let? e := req r_value e in
      Some {| ev_id := a; ev_body := {| wb_tag := c; wb_time := d; wb_data := e |} |}
  | _ => None
  end.
(** workflow/src/types.rs 41-48 *)
Definition r_wf_result (v : json) : option (string * wf_result) :=
  let? l := fields ["eventId"; "data"; "context"] v in
  match l with
  | [a; b; c] => let? a := req r_str a in let? b := req r_value b in let? c := opt r_value c in Some (a, {| wr_data := b; wr_context := c |})
  | _ => None
  end.

(** * The handlers of the local runtime API, with their documents *)

(** runtime_local_api.rs 50-64, workflow_runtime_local_api.rs 42-56: the body of the response; null without an event *)
Definition poll_document {B R} (write : event B -> json) (s : api_state B R) : api_state B R * json :=
  let (s', o) := next_event s in (s', match o with Some (_, e) => write e | None => JNull end).
(** runtime_local_api.rs 66-79, and the refusal of the Json extractor *)
Inductive post_response := Answered (r : result_response) | Refused.
(** runtime_local_api.rs 66-79, workflow_runtime_local_api.rs 58-71: the extractor [Json<EventResult>]
    answers 422 (here [Refused]) to a document it cannot read, and the handler does not run. *)
Definition post_document {B R} (read : json -> option (string * R)) (s : api_state B R) (doc : json) : api_state B R * post_response :=
  match read doc with
  | Some (id, r) => let (s', a) := event_result s id r in (s', Answered a)
  | None => (s, Refused)
  end.

(** ws-registry/src/types.rs 8-20: a message of a batch; [wm_connection_id] and the others are the
    fields the handler goes on to use, the string is [source_node]. *)
Definition r_ws_message (v : json) : option (string * LocalApiModel.ws_message) :=
  let? l := fields ["connectionId"; "sourceNode"; "informClientsOnLoss"; "messageId"; "message"] v in
  match l with
  | [a; b; c; d; e] =>
      let? a := req r_str a in let? b := req r_str b in let? c := opt (r_list r_str) c in let? d := req r_str d in let? e := req r_str e in
      Some (b, {| wm_connection_id := a; wm_inform_clients_on_loss := c; wm_message_id := d; wm_message := e |})
  | _ => None
  end.
(** ws-registry/src/types.rs 3-6 *)
Definition r_ws_messages (v : json) : option (list (string * LocalApiModel.ws_message)) :=
  let? l := fields ["messages"] v in
  match l with [a] => req (r_list r_ws_message) a | _ => None end.
(** runtime_local_api.rs 81-113, and the refusal of the Json extractor *)
Inductive batch_response := BatchSent | BatchError (e : ws_messages_error) | BatchRefused.
(** runtime_local_api.rs 81-102 *)
Definition post_messages {W} (send : option (sender W)) (w : W) (doc : json) : W * batch_response :=
  match r_ws_messages doc with
  | Some ms => let (w', e) := ws_messages send w (map snd ms) in (w', match e with None => BatchSent | Some e => BatchError e end)
  | None => (w, BatchRefused)
  end.

(** * Messages between nodes *)

(** ws-registry/src/types.rs 8-20; a message published by a node has its list (registry.rs 376) *)
Definition w_ws_message (m : ClusterModel.ws_message) : list (string * json) :=
  [("connectionId", JStr (wm_conn m)); ("sourceNode", JStr (wm_source m)); ("informClientsOnLoss", w_strs (wm_inform m));
   ("messageId", JStr (wm_id m)); ("message", JStr (wm_text m))].
(** ws-registry/src/types.rs 23-33: internally tagged, the tag first *)
Definition w_bus (m : bus_message) : json :=
  match m with
  | MsgWs m => JObj (("type", JStr "WebSocket") :: w_ws_message m)
  | MsgAck node id => JObj [("type", JStr "Ack"); ("message_node", JStr node); ("message_id", JStr id)]
  end.
(** pubsub.rs 167-171 *)
Definition w_wrapped (w : wrapped) : json := JObj [("source_node", JStr (wr_source w)); ("message", w_bus (wr_message w))].

(** ws-registry/src/types.rs 29-33 *)
Definition r_ack (v : json) : option (string * string) :=
  let? l := fields ["message_node"; "message_id"] v in
  match l with [a; b] => let? a := req r_str a in let? b := req r_str b in Some (a, b) | _ => None end.
(** ws-registry/src/types.rs 23-27: the member "type", which may occur once, says what the other
    members are; in an array it is the first element. *)
Definition r_bus (v : json) : option bus_message :=
  let? (t, content) :=
    match v with
    | JObj m => if Nat.eqb (occurs "type" m) 1 then let? t := lookup "type" m in Some (t, JObj (remove_key "type" m)) else None
    | JArr (t :: l) => Some (t, JArr l)
    | _ => None
    end in
  let? t := r_str t in
  if String.eqb t "WebSocket" then
    let? (src, m) := r_ws_message content in
    Some (MsgWs {| wm_conn := wm_connection_id m; wm_source := src;
                   wm_inform := match wm_inform_clients_on_loss m with Some l => l | None => [] end;
                   wm_id := wm_message_id m; wm_text := wm_message m |})
  else if String.eqb t "Ack" then let? (node, id) := r_ack content in Some (MsgAck node id)
  else None.
(** pubsub.rs 167-171, read at 108-114 *)
Definition r_wrapped (v : json) : option wrapped :=
  let? l := fields ["source_node"; "message"] v in
  match l with [a; b] => let? a := req r_str a in let? b := req r_bus b in Some {| wr_source := a; wr_message := b |} | _ => None end.
