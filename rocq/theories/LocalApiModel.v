(** Model of the local runtime API, through which the handlers executable polls
    events and posts results:
    /repo/libs/runtime/core/src/runtime_local_api.rs and
    /repo/libs/runtime/workflow/src/workflow_runtime_local_api.rs (same code for
    the two event endpoints). *)
From Verif Require Import Base.
Open Scope string_scope.

Section Events.
  (** [B]: everything in EventData but its id (core/src/types.rs 9-17).
      [R]: everything in EventResult but its event id (core/src/types.rs 128-134). *)
  Variables B R : Type.

  Record event := { ev_id : string; ev_body : B }.

  (** A oneshot sender is identified with the number of its channel: channels are
      created one per enqueued event (core/src/types.rs 120-126 EventTuple). *)
  Definition ticket := nat.

  (** The shared state, runtime_local_api.rs 226-232: both collections are behind
      mutexes; each handler keeps the locks it needs for its whole body, so the
      handlers are modelled as atomic steps.
      [next_ticket], [delivered] and [gone] describe the oneshot channels: how many
      were created, what was put in each, and whose receiver was dropped. *)
  Record api_state := {
    queue : list (ticket * event);
    processing : smap (ticket * event);
    next_ticket : nat;
    delivered : list (ticket * (event * R));
    gone : list ticket
  }.

  (** core application.rs 213-226, workflow application.rs 145-153: both start empty *)
  Definition api_init : api_state :=
    {| queue := []; processing := []; next_ticket := 0; delivered := []; gone := [] |}.

  (** runtime_local_api.rs 66-79 and errors.rs (EventResultError) *)
  Inductive result_response := ResultProcessed | EventNotFound | UnexpectedError.

  (** The producer of an event (not part of the file): creates a channel and
      pushes the pair on the back of the queue. *)
  Definition enqueue (s : api_state) (e : event) : api_state :=
    {| queue := (queue s ++ [(next_ticket s, e)])%list; processing := processing s;
       next_ticket := S (next_ticket s); delivered := delivered s; gone := gone s |}.

  (** runtime_local_api.rs 50-64, workflow_runtime_local_api.rs 42-56.
      The response carries the event only; the ticket is kept in the model's
      answer so that statements can say which event was handed out. *)
  Definition next_event (s : api_state) : api_state * option (ticket * event) :=
    match queue s with
    | (tx, e) :: q =>
        ({| queue := q; processing := insert (ev_id e) (tx, e) (processing s);
            next_ticket := next_ticket s; delivered := delivered s; gone := gone s |},
         Some (tx, e))
    | [] => (s, None)
    end.

  (** runtime_local_api.rs 66-79, workflow_runtime_local_api.rs 58-71.
      [tx.send] fails exactly when the receiver is gone. *)
  Definition event_result (s : api_state) (id : string) (r : R) : api_state * result_response :=
    match lookup id (processing s) with
    | Some (tx, e) =>
        let s' := {| queue := queue s; processing := remove_key id (processing s);
                     next_ticket := next_ticket s; delivered := delivered s; gone := gone s |} in
        if existsb (Nat.eqb tx) (gone s) then (s', UnexpectedError)
        else ({| queue := queue s'; processing := processing s'; next_ticket := next_ticket s';
                 delivered := (delivered s' ++ [(tx, (e, r))])%list; gone := gone s' |},
              ResultProcessed)
    | None => (s, EventNotFound)
    end.

  (** A waiter gives up: its receiver is dropped. Outside of the two files: the receiver is held by whoever put the event in the queue (runtime_local_api.rs 74-76). *)
  Definition waiter_gone (s : api_state) (tx : ticket) : api_state :=
    {| queue := queue s; processing := processing s; next_ticket := next_ticket s;
       delivered := delivered s; gone := tx :: gone s |}.

  (** The calls of runtime_local_api.rs 50-79 and the two acts of the waiter *)
  Inductive api_op :=
  | Enqueue (e : event)
  | Poll
  | PostResult (id : string) (r : R)
  | WaiterGone (tx : ticket).

  (** runtime_local_api.rs 50-79 *)
  Inductive api_answer :=
  | ANone
  | APoll (o : option (ticket * event))
  | AResult (r : result_response).

  (** runtime_local_api.rs 50-79, workflow_runtime_local_api.rs 42-71 *)
  Definition api_step (s : api_state) (o : api_op) : api_state * api_answer :=
    match o with
    | Enqueue e => (enqueue s e, ANone)
    | Poll => let (s', r) := next_event s in (s', APoll r)
    | PostResult id r => let (s', a) := event_result s id r in (s', AResult a)
    | WaiterGone tx => (waiter_gone s tx, ANone)
    end.

  (** A history: the operations performed, each with its answer. runtime_local_api.rs 50-79. *)
  Fixpoint api_run (s : api_state) (os : list api_op) : api_state * list (api_op * api_answer) :=
    match os with
    | [] => (s, [])
    | o :: os' =>
        let (s1, a) := api_step s o in
        let (s2, t) := api_run s1 os' in
        (s2, (o, a) :: t)
    end.
End Events.

Arguments ev_id {B}. Arguments ev_body {B}. Arguments Build_event {B}.
Arguments queue {B R}. Arguments processing {B R}. Arguments next_ticket {B R}.
Arguments delivered {B R}. Arguments gone {B R}. Arguments api_init {B R}.
Arguments enqueue {B R}. Arguments next_event {B R}. Arguments event_result {B R}.
Arguments waiter_gone {B R}. Arguments Enqueue {B R}. Arguments Poll {B R}.
Arguments PostResult {B R}. Arguments WaiterGone {B R}.
Arguments ANone {B}. Arguments APoll {B}. Arguments AResult {B}.
Arguments api_step {B R}. Arguments api_run {B R}.

(** ** Posting WebSocket messages *)

(** ws-registry/src/types.rs 10-20 *)
Record ws_message := {
  wm_connection_id : string;
  wm_inform_clients_on_loss : option (list string);
  wm_message_id : string;
  wm_message : string
}.

(** ws-registry/src/registry.rs SendContext. registry.rs 22-34. *)
Record send_context := { sc_inform_clients : list string; sc_wait_for_ack : bool }.

(** runtime_local_api.rs 104-113 *)
Definition create_send_context (inform : option (list string)) : option send_context :=
  match inform with
  | None => None
  | Some cs => Some {| sc_inform_clients := cs; sc_wait_for_ack := false |}
  end.

(** runtime_local_api.rs 81-102 and errors.rs (WebSocketsMessageError) *)
Inductive ws_messages_error := WsNotEnabled | WsUnexpectedError.

Section Ws.
  (** The registry's send is a parameter: from the current world, a connection,
      a message id, a message and a context to the new world and whether it
      returned Ok.  [None]: no registry configured. *)
  Variable W : Type.
  Definition sender := W -> string -> string -> string -> option send_context -> W * bool.

  (** The loop of runtime_local_api.rs 86-97 *)
  Fixpoint ws_send_loop (send : sender) (w : W) (ms : list ws_message) : W * option ws_messages_error :=
    match ms with
    | [] => (w, None)
    | m :: ms' =>
        let (w', ok) := send w (wm_connection_id m) (wm_message_id m) (wm_message m)
                             (create_send_context (wm_inform_clients_on_loss m)) in
        if ok then ws_send_loop send w' ms' else (w', Some WsUnexpectedError)
    end.

  (** runtime_local_api.rs 81-102 *)
  Definition ws_messages (send : option sender) (w : W) (ms : list ws_message)
    : W * option ws_messages_error :=
    match send with
    | Some snd' => ws_send_loop snd' w ms
    | None => (w, Some WsNotEnabled)
    end.
End Ws.
Arguments ws_send_loop {W}. Arguments ws_messages {W}.

(** ** The configuration handed to the handlers executable *)

(** core/src/config.rs 222-254, the fields used *)
Record http_handler := {
  hh_name : string; hh_path : string; hh_method : string; hh_timeout : Z; hh_tracing : bool }.
(** core/src/config.rs 244-254 *)
Record ws_handler := {
  wh_name : string; wh_route_key : string; wh_route : string; wh_timeout : Z; wh_tracing : bool }.
(** core/src/config.rs 278-286 *)
Record event_handler := { eh_name : string; eh_timeout : Z; eh_tracing : bool }.
(** core/src/config.rs 261-276 *)
Record consumer_config := { cc_source_id : string; cc_handlers : list event_handler }.
(** core/src/config.rs 293-316 *)
Record schedule_config := {
  sch_id : string; sch_value : string; sch_handlers : list event_handler }.
(** core/src/config.rs 197-213: absent sections are [None]; the nested API
    sections are flattened as in the if-lets of runtime_local_api.rs 146-161. *)
Record app_config := {
  ac_api : option (option (list http_handler) * option (list ws_handler) * bool);
  ac_consumers : option (list consumer_config);
  ac_schedules : option (list schedule_config)
}.

(** One entry of the answer of GET /runtime/config (runtime_local_api.rs 255-324):
    name, tag, the one or two kind-specific fields, timeout, tracing. *)
Record handler_entry := {
  he_name : string; he_tag : string; he_fields : list string; he_timeout : Z; he_tracing : bool }.
(** runtime_local_api.rs 235-248 *)
Record runtime_config := {
  rc_tracing : bool;
  rc_http : list handler_entry;
  rc_websocket : list handler_entry;
  rc_consumer : list handler_entry;
  rc_schedule : list handler_entry
}.

(** runtime_local_api.rs 144-161 *)
Definition http_entries (c : app_config) : list handler_entry :=
  match ac_api c with
  | Some (Some hs, _, _) =>
      map (fun h => {| he_name := hh_name h; he_tag := hh_method h ++ "::" ++ hh_path h;
                       he_fields := [hh_path h; hh_method h];
                       he_timeout := hh_timeout h; he_tracing := hh_tracing h |}) hs
  | _ => []
  end.
(** runtime_local_api.rs 163-180 *)
Definition websocket_entries (c : app_config) : list handler_entry :=
  match ac_api c with
  | Some (_, Some hs, _) =>
      map (fun h => {| he_name := wh_name h; he_tag := wh_route_key h ++ "::" ++ wh_route h;
                       he_fields := [wh_route_key h; wh_route h];
                       he_timeout := wh_timeout h; he_tracing := wh_tracing h |}) hs
  | _ => []
  end.
(** runtime_local_api.rs 182-202 *)
Definition consumer_entries (c : app_config) : list handler_entry :=
  match ac_consumers c with
  | Some cs =>
      flat_map (fun k => map (fun h =>
        {| he_name := eh_name h; he_tag := "source::" ++ cc_source_id k ++ "::" ++ eh_name h;
           he_fields := [cc_source_id k];
           he_timeout := eh_timeout h; he_tracing := eh_tracing h |}) (cc_handlers k)) cs
  | None => []
  end.
(** runtime_local_api.rs 204-224 *)
Definition schedule_entries (c : app_config) : list handler_entry :=
  match ac_schedules c with
  | Some cs =>
      flat_map (fun k => map (fun h =>
        {| he_name := eh_name h; he_tag := "source::" ++ sch_id k ++ "::" ++ eh_name h;
           he_fields := [sch_value k];
           he_timeout := eh_timeout h; he_tracing := eh_tracing h |}) (sch_handlers k)) cs
  | None => []
  end.
(** runtime_local_api.rs 121-142 *)
Definition runtime_config_of (c : app_config) : runtime_config :=
  {| rc_tracing := match ac_api c with Some (_, _, t) => t | None => false end;
     rc_http := http_entries c; rc_websocket := websocket_entries c;
     rc_consumer := consumer_entries c; rc_schedule := schedule_entries c |}.

(** workflow_runtime_local_api.rs 90-107 *)
Record state_handler := {
  sh_name : string; sh_state : string; sh_timeout : Z; sh_tracing : bool }.
(** workflow_runtime_local_api.rs 90-107 *)
Definition state_handler_entries (hs : option (list state_handler)) : list handler_entry :=
  match hs with
  | Some l => map (fun h => {| he_name := sh_name h; he_tag := "state::" ++ sh_state h;
                               he_fields := [sh_state h];
                               he_timeout := sh_timeout h; he_tracing := sh_tracing h |}) l
  | None => []
  end.
