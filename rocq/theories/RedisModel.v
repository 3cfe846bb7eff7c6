(** Model of the link between a node and Redis, libs/runtime/ws-redis/src/pubsub.rs, from
    the choice of a connection to the end of the task that serves it, and of the tasks of a
    registry that own its two halves (libs/runtime/ws-registry/src/registry.rs 61-225).
    ClusterModel.v and PumpModel.v follow what the nodes say to each other over links that
    live for ever and carry nothing else; here anything may arrive on the channel, and
    halves and handles may be dropped.
    Simplifications: the channels have no bounds (PumpModel.v has them); a task that a step
    of another task allows to go on does so in a step of its own. *)
From Verif Require Import Base Json ClusterModel WireModel.
Open Scope string_scope.
Local Open Scope list_scope.

(** * The connection (pubsub.rs 16-26, 86-92 and 178-208) *)

(** The protocol versions of Redis (pubsub.rs 192; third-party: redis 0.32.3) *)
Inductive protocol := RESP2 | RESP3.
(** What the URL of a node says (third-party: redis 0.32.3 parses it; pubsub.rs 183, 191).
    A URL that names no protocol means RESP2. *)
Record node_url := { u_host : string; u_password : option string; u_protocol : protocol }.
(** pubsub.rs 17-26: the settings that choose a connection.  [None] is a URL that the
    client does not accept. *)
Record conn_config := {
  cc_node : string; cc_channel : string; cc_nodes : list (option node_url); cc_password : option string; cc_cluster : bool }.

(** What the client is told to do: the hosts it may contact, the password and the protocol.
    pubsub.rs 173-176 and 183-198. *)
Record dial := { d_hosts : list string; d_password : option string; d_protocol : protocol }.
(** A panic, an error of [connect] (pubsub.rs 88), or a dial *)
Inductive dialled := DPanic | DError | DDial (d : dial).

(** The nodes of a cluster: every URL must be accepted (third-party: ClusterClientBuilder::build; pubsub.rs 191, 197) *)
Fixpoint all_urls (l : list (option node_url)) : option (list node_url) :=
  match l with
  | [] => Some []
  | None :: _ => None
  | Some u :: r => match all_urls r with Some us => Some (u :: us) | None => None end
  end.
(** option equality of passwords (third-party: ClusterClientBuilder::build; pubsub.rs 197) *)
Definition same_password (a b : option string) : bool :=
  match a, b with Some x, Some y => String.eqb x y | None, None => true | _, _ => false end.

(** pubsub.rs 178-201.  Third-party part of 197: no nodes is an error; without a password
    of its own the cluster client takes that of the first URL, and the others must have
    the same. *)
Definition get_redis_connection (c : conn_config) : dialled :=
  if negb (cc_cluster c) then
    match cc_nodes c with
    | [] => DPanic                                                    (* 183: nodes[0] *)
    | None :: _ => DError                                             (* 183: Client::open *)
    | Some u :: _ => DDial {| d_hosts := [u_host u]; d_password := u_password u; d_protocol := u_protocol u |}
    end
  else
    match all_urls (cc_nodes c) with
    | None | Some [] => DError                                        (* 197 *)
    | Some (u :: us) =>
        match cc_password c with
        | Some p => DDial {| d_hosts := map u_host (u :: us); d_password := Some p; d_protocol := RESP3 |}  (* 192, 194-196 *)
        | None =>
            match u_password u with
            | Some p =>
                if forallb (fun v => same_password (u_password v) (Some p)) us
                then DDial {| d_hosts := map u_host (u :: us); d_password := Some p; d_protocol := RESP3 |}
                else DError
            | None => DDial {| d_hosts := map u_host (u :: us); d_password := None; d_protocol := RESP3 |}
            end
        end
    end.

(** How [connect] ends, when the hosts answer as [login] says: pubsub.rs 91-92.  A client
    subscribes only over RESP3 (third-party: redis 0.32.3, subscribe; 203-208). *)
Inductive connected := KPanic | KError | KLink.
(** pubsub.rs 86-92 and 164 *)
Definition connect (login : list string -> option string -> bool) (c : conn_config) : connected :=
  match get_redis_connection c with
  | DPanic => KPanic
  | DError => KError
  | DDial d =>
      if login (d_hosts d) (d_password d)
      then match d_protocol d with RESP3 => KLink | RESP2 => KError end
      else KError
  end.

(** * The task (pubsub.rs 94-165) *)

(** A value of a push: text that is JSON, text that is not, or no text (pubsub.rs 106-108;
    third-party: String::from_redis_value) *)
Inductive rvalue := VJson (v : json) | VText | VOther.
(** The kinds of a push (third-party: redis 0.32.3, PushKind; pubsub.rs 105) *)
Inductive push_kind := KMessage | KOtherKind.
(** A push (third-party: redis 0.32.3, PushInfo; pubsub.rs 103-106) *)
Record push := { p_kind : push_kind; p_data : list rvalue }.

(** The task of pubsub.rs 100-162: running, ended at a break (128 or 158), or panicked (106) *)
Inductive life := Running | Ended | Panicked.

(** pubsub.rs 89-100: the connection's channel and whether the connection is up, the two
    channels of the caller, and whether the caller still has its halves *)
Record link := {
  l_node : string;              (* 115, 121, 141: server_node_name *)
  l_pushes : list push;         (* 89: redis_rx *)
  l_up : bool;                  (* the connection, which owns redis_tx (90-91, 184, 197) *)
  l_out : list bus_message;     (* 96: internal_rx *)
  l_in : list bus_message;      (* 98: caller_rx *)
  l_senders : bool;             (* a caller_tx is left *)
  l_receiver : bool;            (* caller_rx is left *)
  l_task : life }.

(** What can be seen of a link *)
Inductive llog :=
| LSent (m : bus_message) (ok : bool)     (* what send on caller_tx returned (164) *)
| LGot (m : bus_message)                  (* what recv on caller_rx returned (164) *)
| LClosed                                 (* ... or that there is nothing more *)
| LPublished (w : wrapped)                (* 152 *)
| LFailed (w : wrapped)                   (* 153-155 *)
| LTook (p : push).                       (* 103 *)

(** What happens to a link: pubsub.rs 89 (a push, and the loss of the connection), 96-98
    (the caller sends, receives and drops its halves), 103, 138 and 157 (the task goes on) *)
Inductive levent :=
| EvPush (p : push) | EvDown
| EvSend (m : bus_message) | EvRecv | EvDropSenders | EvDropReceiver
| EvTake | EvForward (ok : bool) | EvElse.

(** pubsub.rs 103 *)
Definition set_pushes (l : link) v := {| l_node := l_node l; l_pushes := v; l_up := l_up l; l_out := l_out l; l_in := l_in l; l_senders := l_senders l; l_receiver := l_receiver l; l_task := l_task l |}.
(** pubsub.rs 90-91 *)
Definition set_up (l : link) v := {| l_node := l_node l; l_pushes := l_pushes l; l_up := v; l_out := l_out l; l_in := l_in l; l_senders := l_senders l; l_receiver := l_receiver l; l_task := l_task l |}.
(** pubsub.rs 96, 138 *)
Definition set_lout (l : link) v := {| l_node := l_node l; l_pushes := l_pushes l; l_up := l_up l; l_out := v; l_in := l_in l; l_senders := l_senders l; l_receiver := l_receiver l; l_task := l_task l |}.
(** pubsub.rs 98, 126 *)
Definition set_lin (l : link) v := {| l_node := l_node l; l_pushes := l_pushes l; l_up := l_up l; l_out := l_out l; l_in := v; l_senders := l_senders l; l_receiver := l_receiver l; l_task := l_task l |}.
(** pubsub.rs 96, 164 *)
Definition set_senders (l : link) v := {| l_node := l_node l; l_pushes := l_pushes l; l_up := l_up l; l_out := l_out l; l_in := l_in l; l_senders := v; l_receiver := l_receiver l; l_task := l_task l |}.
(** pubsub.rs 98, 164 *)
Definition set_receiver (l : link) v := {| l_node := l_node l; l_pushes := l_pushes l; l_up := l_up l; l_out := l_out l; l_in := l_in l; l_senders := l_senders l; l_receiver := v; l_task := l_task l |}.
(** pubsub.rs 106, 128, 158: the task is over and with it its halves and the connection *)
Definition stop (l : link) (t : life) := {| l_node := l_node l; l_pushes := []; l_up := false; l_out := []; l_in := l_in l; l_senders := l_senders l; l_receiver := l_receiver l; l_task := t |}.

(** pubsub.rs 105-136: what a push leads to: nothing, a message for the caller, or a panic *)
Inductive verdict := VNothing | VPass (m : bus_message) | VPanic.
(** pubsub.rs 105-136 *)
Definition judge (node : string) (p : push) : verdict :=
  match p_kind p with
  | KOtherKind => VNothing                                    (* 105 *)
  | KMessage =>
      match nth_error (p_data p) 1 with
      | None => VPanic                                        (* 106: data[1] *)
      | Some (VJson v) =>
          match r_wrapped v with                              (* 108 *)
          | Some w => if relevant node w then VPass (wr_message w) else VNothing  (* 115-125 *)
          | None => VNothing                                  (* 110-113 *)
          end
      | Some VText => VNothing                                (* 110-113 *)
      | Some VOther => VNothing                               (* 132-134 *)
      end
  end.

(** pubsub.rs 94-165, one step *)
Definition lstep (l : link) (ev : levent) : option (link * list llog) :=
  match ev with
  | EvPush p => if l_up l then Some (set_pushes l (l_pushes l ++ [p]), []) else None
  | EvDown => if l_up l then Some (set_up l false, []) else None
  | EvSend m =>
      if l_senders l then
        match l_task l with
        | Running => Some (set_lout l (l_out l ++ [m]), [LSent m true])
        | _ => Some (l, [LSent m false])
        end
      else None
  | EvRecv =>
      if l_receiver l then
        match l_in l, l_task l with
        | m :: rest, _ => Some (set_lin l rest, [LGot m])
        | [], Running => None
        | [], _ => Some (l, [LClosed])
        end
      else None
  | EvDropSenders => if l_senders l then Some (set_senders l false, []) else None
  | EvDropReceiver => if l_receiver l then Some (set_lin (set_receiver l false) [], []) else None
  (* 103-137 *)
  | EvTake =>
      match l_task l, l_pushes l with
      | Running, p :: rest =>
          match judge (l_node l) p with
          | VNothing => Some (set_pushes l rest, [LTook p])
          | VPass m =>
              if l_receiver l then Some (set_lin (set_pushes l rest) (l_in l ++ [m]), [LTook p])
              else Some (stop l Ended, [LTook p])             (* 126-129 *)
          | VPanic => Some (stop l Panicked, [LTook p])
          end
      | _, _ => None
      end
  (* 138-156; a connection that is down publishes nothing (third-party) *)
  | EvForward ok =>
      match l_task l, l_out l with
      | Running, m :: rest =>
          let w := {| wr_source := l_node l; wr_message := m |} in
          if ok then if l_up l then Some (set_lout l rest, [LPublished w]) else None
          else Some (set_lout l rest, [LFailed w])
      | _, _ => None
      end
  (* 157-159: both recv calls say that there is nothing more *)
  | EvElse =>
      match l_task l, l_pushes l, l_out l with
      | Running, [], [] => if l_up l || l_senders l then None else Some (stop l Ended, [])
      | _, _, _ => None
      end
  end.

(** pubsub.rs 100-162, as scheduled *)
Fixpoint lrun (l : link) (log : list llog) (evs : list levent) : option (link * list llog) :=
  match evs with
  | [] => Some (l, log)
  | ev :: evs' => match lstep l ev with Some (l', out) => lrun l' (log ++ out) evs' | None => None end
  end.

(** pubsub.rs 89-100: a link that has just been made *)
Definition new_link (node : string) : link :=
  {| l_node := node; l_pushes := []; l_up := true; l_out := []; l_in := []; l_senders := true; l_receiver := true; l_task := Running |}.

(** * A registry on a link (registry.rs 61-225, and pubsub.rs 45-64) *)

(** The tasks and handles that own a registry: the caller's handle, the task that consumes
    actions (registry.rs 110-162), which is the only holder of the receiver of actions, and
    the listener (173-224), which holds the receiver of the link; and the tracker (acks.rs
    142-310), which lives while a sender of acknowledgements does (registry.rs 68, 115).
    The first three hold an [Arc] of the registry, which holds the sender of the link (74)
    and that of the tracker. *)
Record owners := { o_link : link; o_handle : bool; o_consumer : bool; o_listener : bool; o_tracker : bool }.
(** registry.rs 61-79: a registry lives while someone holds it *)
Definition registry_lives (o : owners) : bool := o_handle o || o_consumer o || o_listener o.

Inductive oevent :=
| OLink (ev : levent)        (* a step of the link that is not the dropping of a half *)
| ODropHandle                (* the application lets go of the registry *)
| OListenerEnds              (* registry.rs 175: recv says that there is nothing more *)
| OTrackerEnds               (* acks.rs 142-310: every sender is gone *)
| OConsumerEnds              (* registry.rs 118: the tracker, which holds the only sender of actions, is gone *)
| OConsumerPanics.           (* registry.rs 156: a notice of loss could not be sent *)

(** Let go of the sender of the link when the registry goes (registry.rs 74) *)
Definition settle (o : owners) : owners :=
  if registry_lives o then o
  else {| o_link := set_senders (o_link o) false; o_handle := o_handle o; o_consumer := o_consumer o; o_listener := o_listener o; o_tracker := o_tracker o |}.

(** registry.rs 99-225, one step *)
Definition ostep (o : owners) (ev : oevent) : option owners :=
  match ev with
  | OLink (EvDropSenders | EvDropReceiver) => None
  | OLink e =>
      match lstep (o_link o) e with
      | Some (l, _) => Some {| o_link := l; o_handle := o_handle o; o_consumer := o_consumer o; o_listener := o_listener o; o_tracker := o_tracker o |}
      | None => None
      end
  | ODropHandle =>
      if o_handle o then Some (settle {| o_link := o_link o; o_handle := false; o_consumer := o_consumer o; o_listener := o_listener o; o_tracker := o_tracker o |}) else None
  | OListenerEnds =>
      if o_listener o && match l_in (o_link o), l_task (o_link o) with [], Ended | [], Panicked => true | _, _ => false end
      then Some (settle {| o_link := set_receiver (o_link o) false; o_handle := o_handle o; o_consumer := o_consumer o; o_listener := false; o_tracker := o_tracker o |}) else None
  | OTrackerEnds =>
      if o_tracker o && negb (registry_lives o)
      then Some {| o_link := o_link o; o_handle := o_handle o; o_consumer := o_consumer o; o_listener := o_listener o; o_tracker := false |} else None
  | OConsumerPanics =>
      if o_consumer o
      then Some (settle {| o_link := o_link o; o_handle := o_handle o; o_consumer := false; o_listener := o_listener o; o_tracker := o_tracker o |}) else None
  | OConsumerEnds =>
      if o_consumer o && negb (o_tracker o)
      then Some (settle {| o_link := o_link o; o_handle := o_handle o; o_consumer := false; o_listener := o_listener o; o_tracker := o_tracker o |}) else None
  end.
(** registry.rs 99-225, as scheduled *)
Fixpoint orun (o : owners) (evs : list oevent) : option owners :=
  match evs with [] => Some o | ev :: evs' => match ostep o ev with Some o' => orun o' evs' | None => None end end.
(** pubsub.rs 54-61: the documented use, a registry made on a link, its tracker started and its listener too *)
Definition in_use (node : string) : owners :=
  {| o_link := new_link node; o_handle := true; o_consumer := true; o_listener := true; o_tracker := true |}.
