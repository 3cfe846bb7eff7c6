(** Model of libs/runtime/ws-registry/src/registry.rs and
    libs/runtime/ws-redis/src/pubsub.rs (connect): the connection registry of one node,
    and a cluster of nodes joined by a Redis pub/sub channel.

    Every await point ends an atomic step, so calls, the action consumer, the listener,
    the Redis task and the acknowledgement worker interleave freely, on every node.
    Channels are unbounded FIFO queues (capacities only delay steps, which can be for
    ever: see PumpModel.v and C151).  The mutex around a
    socket only delays a send and is not modelled here.  Whether a socket write, a push
    to the broadcaster channel or a Redis publish succeeds is an input of the step.
    Redis delivers a published message to every subscriber, the publisher included, in
    the order of publication; JSON encoding of bus messages is the identity. *)
From Verif Require Import Base AckModel.
Open Scope string_scope.
Local Open Scope list_scope.

(** types.rs 8-33 *)
Record ws_message := { wm_conn : string; wm_source : string; wm_inform : list string; wm_id : string; wm_text : string }.
(** types.rs 23-33: Message and AckMessage *)
Inductive bus_message :=
| MsgWs (m : ws_message)
| MsgAck (message_node message_id : string).
(** pubsub.rs MessageWithSourceNode. pubsub.rs 167-171. *)
Record wrapped := { wr_source : string; wr_message : bus_message }.

(** errors.rs and the result of registry.rs 346-387 *)
Inductive send_result := RSent | RSendError | RBroadcastError | RLost.

(** Where a call of registry.rs 346-387 is. *)
Inductive sphase := PLookup | PDeliver | PRecord | PPublish | PRegister | PAwait | PDone (r : send_result).
(** The arguments of registry.rs 346-352 and the context of 22-34, of one call *)
Record job := { j_conn : string; j_id : string; j_text : string; j_inform : list string; j_wait : bool; j_phase : sphase }.

(** registry.rs 118-162: the task consuming actions *)
Inductive consumer := CIdle | CSend (j : job) | CLost (id : string) (todo : list string) | CDead.
(** registry.rs 172-225: the listener task *)
Inductive listener := LIdle | LChecking (m : ws_message) | LLookup (m : ws_message) | LDeliver (m : ws_message) | LAck (m : ws_message).

(** Who is acting: a caller of send_message, the consumer resending, or the listener. registry.rs 346-387, 124-133, 172-225. *)
Inductive who := ByCall (k : nat) | ByResend | ByListener (m : ws_message).

(** What a node does. Socket writes (registry.rs 184-199, 353-361), pushes to the broadcaster (201-215, 372-380), publishing (pubsub.rs 152), results of calls (registry.rs 346-387), and what acks.rs logs. *)
Inductive nlog :=
| NAdd (c : string) | NRemove (c : string) | NStarted
| NCall (k : nat) (c id text : string) (inform : list string) (wait : bool)
| NReturn (k : nat) (r : send_result)
| NFound (w : who) (c : string) (found : bool)                 (* the registry was looked up *)
| NWrite (w : who) (c text : string) (ok : bool)               (* text written to a socket *)
| NWriteLost (c id : string) (ok : bool)                       (* loss event written to a socket *)
| NInbox (w : who) (m : worker_msg)                            (* sent to the ack worker *)
| NOut (w : who) (m : bus_message)                             (* given to the broadcaster *)
| NOutFail (w : who)                                           (* the broadcaster channel was closed *)
| NForward (w : wrapped) (ok : bool)                           (* published to Redis *)
| NTake (w : wrapped)                                          (* taken from the subscription *)
| NHear (m : bus_message)                                      (* received by the listener *)
| NSkip (m : ws_message)                                       (* skipped as already acknowledged *)
| NWorker (e : ack_log).                                       (* the ack worker's own log *)

(** registry.rs 61-79, its tasks (99-170, 172-225), acks.rs 69-82, and the channels of pubsub.rs 86-165 *)
Record node := {
  n_name : string;              (* registry server_node_name *)
  n_bus : string;               (* pub/sub server_node_name *)
  n_bcast : bool;               (* a broadcaster is configured *)
  n_cf : ack_config;
  n_conns : list string;
  n_started : bool;             (* ack_sender is set *)
  n_worker : worker;
  n_inbox : list worker_msg;
  n_actions : list action;
  n_jobs : list job;            (* call number k is the k-th *)
  n_consumer : consumer;
  n_listener : listener;
  n_out : list bus_message;
  n_sub : list wrapped;
  n_in : list bus_message }.

(** registry.rs 82-93 *)
Definition new_node (name bus : string) (bcast : bool) (cf : ack_config) : node :=
  {| n_name := name; n_bus := bus; n_bcast := bcast; n_cf := cf; n_conns := []; n_started := false;
     n_worker := new_worker; n_inbox := []; n_actions := []; n_jobs := []; n_consumer := CIdle;
     n_listener := LIdle; n_out := []; n_sub := []; n_in := [] |}.

(** Field updates. (registry.rs 66) *)
Definition set_conns (n : node) v := {| n_name := n_name n; n_bus := n_bus n; n_bcast := n_bcast n; n_cf := n_cf n; n_conns := v; n_started := n_started n; n_worker := n_worker n; n_inbox := n_inbox n; n_actions := n_actions n; n_jobs := n_jobs n; n_consumer := n_consumer n; n_listener := n_listener n; n_out := n_out n; n_sub := n_sub n; n_in := n_in n |}.
(** registry.rs 68, 113-116 *)
Definition set_started (n : node) v := {| n_name := n_name n; n_bus := n_bus n; n_bcast := n_bcast n; n_cf := n_cf n; n_conns := n_conns n; n_started := v; n_worker := n_worker n; n_inbox := n_inbox n; n_actions := n_actions n; n_jobs := n_jobs n; n_consumer := n_consumer n; n_listener := n_listener n; n_out := n_out n; n_sub := n_sub n; n_in := n_in n |}.
(** acks.rs 69-82 *)
Definition set_worker (n : node) v := {| n_name := n_name n; n_bus := n_bus n; n_bcast := n_bcast n; n_cf := n_cf n; n_conns := n_conns n; n_started := n_started n; n_worker := v; n_inbox := n_inbox n; n_actions := n_actions n; n_jobs := n_jobs n; n_consumer := n_consumer n; n_listener := n_listener n; n_out := n_out n; n_sub := n_sub n; n_in := n_in n |}.
(** the channel of registry.rs 104 *)
Definition set_inbox (n : node) v := {| n_name := n_name n; n_bus := n_bus n; n_bcast := n_bcast n; n_cf := n_cf n; n_conns := n_conns n; n_started := n_started n; n_worker := n_worker n; n_inbox := v; n_actions := n_actions n; n_jobs := n_jobs n; n_consumer := n_consumer n; n_listener := n_listener n; n_out := n_out n; n_sub := n_sub n; n_in := n_in n |}.
(** the channel of registry.rs 105-106 *)
Definition set_actions (n : node) v := {| n_name := n_name n; n_bus := n_bus n; n_bcast := n_bcast n; n_cf := n_cf n; n_conns := n_conns n; n_started := n_started n; n_worker := n_worker n; n_inbox := n_inbox n; n_actions := v; n_jobs := n_jobs n; n_consumer := n_consumer n; n_listener := n_listener n; n_out := n_out n; n_sub := n_sub n; n_in := n_in n |}.
(** calls of registry.rs 346-387 *)
Definition set_jobs (n : node) v := {| n_name := n_name n; n_bus := n_bus n; n_bcast := n_bcast n; n_cf := n_cf n; n_conns := n_conns n; n_started := n_started n; n_worker := n_worker n; n_inbox := n_inbox n; n_actions := n_actions n; n_jobs := v; n_consumer := n_consumer n; n_listener := n_listener n; n_out := n_out n; n_sub := n_sub n; n_in := n_in n |}.
(** the task of registry.rs 110-168 *)
Definition set_consumer (n : node) v := {| n_name := n_name n; n_bus := n_bus n; n_bcast := n_bcast n; n_cf := n_cf n; n_conns := n_conns n; n_started := n_started n; n_worker := n_worker n; n_inbox := n_inbox n; n_actions := n_actions n; n_jobs := n_jobs n; n_consumer := v; n_listener := n_listener n; n_out := n_out n; n_sub := n_sub n; n_in := n_in n |}.
(** the task of registry.rs 172-225 *)
Definition set_listener (n : node) v := {| n_name := n_name n; n_bus := n_bus n; n_bcast := n_bcast n; n_cf := n_cf n; n_conns := n_conns n; n_started := n_started n; n_worker := n_worker n; n_inbox := n_inbox n; n_actions := n_actions n; n_jobs := n_jobs n; n_consumer := n_consumer n; n_listener := v; n_out := n_out n; n_sub := n_sub n; n_in := n_in n |}.
(** the channel of pubsub.rs 96 *)
Definition set_out (n : node) v := {| n_name := n_name n; n_bus := n_bus n; n_bcast := n_bcast n; n_cf := n_cf n; n_conns := n_conns n; n_started := n_started n; n_worker := n_worker n; n_inbox := n_inbox n; n_actions := n_actions n; n_jobs := n_jobs n; n_consumer := n_consumer n; n_listener := n_listener n; n_out := v; n_sub := n_sub n; n_in := n_in n |}.
(** the channel of pubsub.rs 89 *)
Definition set_sub (n : node) v := {| n_name := n_name n; n_bus := n_bus n; n_bcast := n_bcast n; n_cf := n_cf n; n_conns := n_conns n; n_started := n_started n; n_worker := n_worker n; n_inbox := n_inbox n; n_actions := n_actions n; n_jobs := n_jobs n; n_consumer := n_consumer n; n_listener := n_listener n; n_out := n_out n; n_sub := v; n_in := n_in n |}.
(** the channel of pubsub.rs 98 *)
Definition set_in (n : node) v := {| n_name := n_name n; n_bus := n_bus n; n_bcast := n_bcast n; n_cf := n_cf n; n_conns := n_conns n; n_started := n_started n; n_worker := n_worker n; n_inbox := n_inbox n; n_actions := n_actions n; n_jobs := n_jobs n; n_consumer := n_consumer n; n_listener := n_listener n; n_out := n_out n; n_sub := n_sub n; n_in := v |}.

(** get_connection, registry.rs 235-245 *)
Definition has_conn (c : string) (n : node) : bool := existsb (String.eqb c) (n_conns n).

(** registry.rs 256-326: a message for the ack worker is sent only when ack_sender is set *)
Definition to_worker (w : who) (m : worker_msg) (n : node) : node * list nlog :=
  if n_started n then (set_inbox n (n_inbox n ++ [m]), [NInbox w m]) else (n, []).

(** registry.rs 346-387: a call goes on *)
Definition with_phase (j : job) (p : sphase) : job :=
  {| j_conn := j_conn j; j_id := j_id j; j_text := j_text j; j_inform := j_inform j; j_wait := j_wait j; j_phase := p |}.

(** registry.rs 346-387, one await at a time; [tx] names the caller's oneshot channel.
    With no broadcaster and an unknown connection the call returns Ok (line 386). *)
Definition send_step (n : node) (w : who) (tx : nat) (j : job) (ok : bool) : option (node * job * list nlog) :=
  match j_phase j with
  | PLookup =>
      let found := has_conn (j_conn j) n in
      Some (n, with_phase j (if found then PDeliver else if n_bcast n then PRecord else PDone RSent),
            [NFound w (j_conn j) found])
  | PDeliver =>
      Some (n, with_phase j (PDone (if ok then RSent else RSendError)), [NWrite w (j_conn j) (j_text j) ok])
  | PRecord =>
      let (n', l) := to_worker w (MStatus (j_id j) (Pending (j_text j) (j_inform j))) n in
      Some (n', with_phase j PPublish, l)
  | PPublish =>
      let m := MsgWs {| wm_conn := j_conn j; wm_source := n_name n; wm_inform := j_inform j;
                        wm_id := j_id j; wm_text := j_text j |} in
      if ok then Some (set_out n (n_out n ++ [m]),
                       with_phase j (if j_wait j then PRegister else PDone RSent), [NOut w m])
      else Some (n, with_phase j (PDone RBroadcastError), [NOutFail w])
  | PRegister =>
      let (n', l) := to_worker w (MWait (j_id j) tx) n in
      Some (n', with_phase j (if n_started n then PAwait else PDone RSent), l)
  | PAwait | PDone _ => None
  end.

(** registry.rs 346-387: the call that goes on is the same call *)
Fixpoint set_nth {A} (k : nat) (v : A) (l : list A) : list A :=
  match k, l with
  | _, [] => []
  | O, _ :: l' => v :: l'
  | S k', x :: l' => x :: set_nth k' v l'
  end.

(** registry.rs 346-387: the result of a call *)
Definition returned (k : nat) (j : job) : list nlog :=
  match j_phase j with PDone r => [NReturn k r] | _ => [] end.

(** registry.rs 264-269 and 316-323: what the answer of the worker does to the task
    waiting on its oneshot channel *)
Definition on_worker_log (n : node) (e : ack_log) : node * list nlog :=
  match e with
  | AckModel.LCheck _ _ st =>
      match n_listener n with
      | LChecking m =>
          match st with
          | Received => (set_listener n LIdle, [NSkip m])
          | _ => (set_listener n (LLookup m), [])
          end
      | _ => (n, [])
      end
  | AckModel.LWait _ tx st =>
      match nth_error (n_jobs n) tx with
      | Some j =>
          match j_phase j with
          | PAwait =>
              let r := match st with Received => RSent | _ => RLost end in
              (set_jobs n (set_nth tx (with_phase j (PDone r)) (n_jobs n)), [NReturn tx r])
          | _ => (n, [])
          end
      | None => (n, [])
      end
  | AckModel.LAction a => (set_actions n (n_actions n ++ [a]), [])
  | _ => (n, [])
  end.

(** registry.rs 256-270, 298-326: all answers of one step of the worker (acks.rs 105-183) *)
Fixpoint on_worker_logs (n : node) (es : list ack_log) : node * list nlog :=
  match es with
  | [] => (n, [])
  | e :: es' =>
      let (n1, l1) := on_worker_log n e in
      let (n2, l2) := on_worker_logs n1 es' in
      (n2, NWorker e :: l1 ++ l2)
  end.

(** The worker takes the head of its channel. (acks.rs 142-180; the others: registry.rs 99-233, 346-387 and pubsub.rs 100-162.) *)
Inductive node_event :=
| EAdd (c : string) | ERemove (c : string) | EStart
| ECall (c id text : string) (inform : list string) (wait : bool)
| EJob (k : nat) (ok : bool)
| EWorkerRecv (now : N) | EWorker (ev : worker_event)
| EConsumer (ok : bool)
| EListen (ok : bool)
| EForward (ok : bool)
| ETake.

(** pubsub.rs 115-124 *)
Definition relevant (bus : string) (w : wrapped) : bool :=
  if String.eqb (wr_source w) bus then false
  else match wr_message w with
       | MsgAck node _ => String.eqb node bus
       | MsgWs _ => true
       end.

(** One step of one node: new state, log, and what it published to Redis. *)
Definition nstep (n : node) (ev : node_event) : option (node * list nlog * list wrapped) :=
  match ev with
  (* registry.rs 227-233 *)
  | EAdd c => Some (set_conns n (c :: n_conns n), [NAdd c], [])
  | ERemove c => Some (set_conns n (filter (fun x => negb (String.eqb c x)) (n_conns n)), [NRemove c], [])
  (* registry.rs 99-123 *)
  | EStart => if n_bcast n then Some (set_started n true, [NStarted], []) else None
  | ECall c id text inform wait =>
      Some (set_jobs n (n_jobs n ++ [{| j_conn := c; j_id := id; j_text := text; j_inform := inform; j_wait := wait; j_phase := PLookup |}]),
            [NCall (length (n_jobs n)) c id text inform wait], [])
  | EJob k ok =>
      match nth_error (n_jobs n) k with
      | Some j =>
          match send_step n (ByCall k) k j ok with
          | Some (n', j', l) => Some (set_jobs n' (set_nth k j' (n_jobs n')), l ++ returned k j', [])
          | None => None
          end
      | None => None
      end
  | EWorkerRecv now =>
      match n_inbox n with
      | m :: rest =>
          match wstep (n_cf n) (n_worker n) (WRecv m now) with
          | Some (w', es) =>
              let (n', l) := on_worker_logs (set_worker (set_inbox n rest) w') es in Some (n', l, [])
          | None => None
          end
      | [] => None
      end
  | EWorker ev =>
      match ev with
      | WRecv _ _ => None
      | _ =>
          match wstep (n_cf n) (n_worker n) ev with
          | Some (w', es) => let (n', l) := on_worker_logs (set_worker n w') es in Some (n', l, [])
          | None => None
          end
      end
  (* registry.rs 124-161 *)
  | EConsumer ok =>
      match n_consumer n with
      | CIdle =>
          if n_started n then
          match n_actions n with
          | Resend c id m inform :: rest =>
              Some (set_consumer (set_actions n rest)
                     (CSend {| j_conn := c; j_id := id; j_text := m; j_inform := inform; j_wait := false; j_phase := PLookup |}), [], [])
          | ActLost id clients :: rest => Some (set_consumer (set_actions n rest) (CLost id clients), [], [])
          | [] => None
          end else None
      | CSend j =>
          match send_step n ByResend 0 j ok with
          | Some (n', j', l) =>
              Some (set_consumer n' (match j_phase j' with PDone _ => CIdle | _ => CSend j' end), l, [])
          | None => None
          end
      | CLost id [] => Some (set_consumer n CIdle, [], [])
      | CLost id (c :: todo) =>
          if has_conn c n then
            Some (set_consumer n (if ok then CLost id todo else CDead), [NWriteLost c id ok], [])
          else Some (set_consumer n (CLost id todo), [], [])
      | CDead => None
      end
  (* registry.rs 172-225 *)
  | EListen ok =>
      match n_listener n with
      | LIdle =>
          match n_in n with
          | MsgWs m :: rest =>
              let n1 := set_in n rest in
              let (n2, l) := to_worker (ByListener m) (MCheck (wm_id m) 0) n1 in
              Some (set_listener n2 (if n_started n then LChecking m else LLookup m), NHear (MsgWs m) :: l, [])
          | MsgAck node id :: rest =>
              let n1 := set_in n rest in
              let (n2, l) := to_worker (ByListener {| wm_conn := ""; wm_source := node; wm_inform := []; wm_id := id; wm_text := "" |})
                               (MStatus id Received) n1 in
              Some (n2, NHear (MsgAck node id) :: l, [])
          | [] => None
          end
      | LChecking _ => None
      | LLookup m =>
          let found := has_conn (wm_conn m) n in
          Some (set_listener n (if found then LDeliver m else LIdle), [NFound (ByListener m) (wm_conn m) found], [])
      | LDeliver m =>
          Some (set_listener n (LAck m), [NWrite (ByListener m) (wm_conn m) (wm_text m) ok], [])
      | LAck m =>
          let a := MsgAck (wm_source m) (wm_id m) in
          if n_bcast n then
            if ok then Some (set_listener (set_out n (n_out n ++ [a])) LIdle, [NOut (ByListener m) a], [])
            else Some (set_listener n LIdle, [NOutFail (ByListener m)], [])
          else Some (set_listener n LIdle, [], [])
      end
  (* pubsub.rs 139-158 *)
  | EForward ok =>
      match n_out n with
      | m :: rest =>
          let w := {| wr_source := n_bus n; wr_message := m |} in
          Some (set_out n rest, [NForward w ok], if ok then [w] else [])
      | [] => None
      end
  (* pubsub.rs 104-137 *)
  | ETake =>
      match n_sub n with
      | w :: rest =>
          Some (set_in (set_sub n rest) (n_in n ++ if relevant (n_bus n) w then [wr_message w] else []), [NTake w], [])
      | [] => None
      end
  end.

(** A cluster: nodes [0 .. size-1].  A published message reaches every subscription. *)
Record cluster := { cl_size : nat; cl_node : nat -> node }.
(** Redis; pubsub.rs 203-219 (subscribe, publish) *)
Definition publish (ws : list wrapped) (n : node) : node := set_sub n (n_sub n ++ ws).
(** pubsub.rs 152: what a step of a node publishes reaches all; its other effects are its own (registry.rs, acks.rs) *)
Definition cstep (c : cluster) (i : nat) (ev : node_event) : option (cluster * list (nat * nlog)) :=
  if Nat.ltb i (cl_size c) then
    match nstep (cl_node c i) ev with
    | Some (n', l, ws) =>
        Some ({| cl_size := cl_size c;
                 cl_node := fun j => publish ws (if Nat.eqb j i then n' else cl_node c j) |},
              map (fun e => (i, e)) l)
    | None => None
    end
  else None.

(** registry.rs 99-387, acks.rs 105-310 and pubsub.rs 100-162 on all nodes, as scheduled *)
Fixpoint crun (c : cluster) (log : list (nat * nlog)) (evs : list (nat * node_event)) : option (cluster * list (nat * nlog)) :=
  match evs with
  | [] => Some (c, log)
  | (i, ev) :: evs' =>
      match cstep c i ev with
      | Some (c', out) => crun c' (log ++ out) evs'
      | None => None
      end
  end.
