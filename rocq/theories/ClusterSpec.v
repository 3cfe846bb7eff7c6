(** Vocabulary for the registry and cluster properties C34-C36 and C62. *)
From Verif Require Import Base AckModel AckSpec ClusterModel.
Open Scope string_scope.
Local Open Scope list_scope.

(** What happened on node [i]. *)
Definition on_node (i : nat) (log : list (nat * nlog)) : list nlog :=
  map snd (filter (fun e => Nat.eqb (fst e) i) log).

(** Any number of nodes, each with any names and settings, starting empty. *)
Definition fresh (c : cluster) : Prop :=
  forall i, exists name bus bcast cf, cl_node c i = new_node name bus bcast cf.
Definition creachable (c0 c : cluster) (log : list (nat * nlog)) : Prop :=
  fresh c0 /\ exists evs, crun c0 [] evs = Some (c, log).

(** The node's connection [c] according to the adds and removes. *)
Definition reg_change (c : string) (e : nlog) : option bool :=
  match e with
  | NAdd c' => if string_dec c' c then Some true else None
  | NRemove c' => if string_dec c' c then Some false else None
  | _ => None
  end.
Definition registered (c : string) (l : list nlog) : Prop := last_assigned (reg_change c) l true.

(** The part of the log that belongs to call [k]. *)
Definition of_call (k : nat) (e : nlog) : bool :=
  match e with
  | NCall k' _ _ _ _ _ | NReturn k' _ => Nat.eqb k' k
  | NFound (ByCall k') _ _ | NWrite (ByCall k') _ _ _ | NInbox (ByCall k') _ | NOut (ByCall k') _ | NOutFail (ByCall k') => Nat.eqb k' k
  | _ => false
  end.

Definition ifb {A} (b : bool) (l : list A) : list A := if b then l else [].

(** Everything a call may do, from start to end.
    [rec]: the tracker was running when the send was to be recorded;
    [reg]: it was running when the wait was to be registered. *)
Inductive call_trace (name : string) (bcast : bool) (k : nat) (c id text : string) (inform : list string) (wait : bool)
  : bool -> bool -> list nlog -> Prop :=
| CtLocal (rec reg ok : bool) :
    call_trace name bcast k c id text inform wait rec reg
      [NCall k c id text inform wait; NFound (ByCall k) c true; NWrite (ByCall k) c text ok;
       NReturn k (if ok then RSent else RSendError)]
| CtNowhere (rec reg : bool) : bcast = false ->
    call_trace name bcast k c id text inform wait rec reg
      [NCall k c id text inform wait; NFound (ByCall k) c false; NReturn k RSent]
| CtNoBus (rec reg : bool) : bcast = true ->
    call_trace name bcast k c id text inform wait rec reg
      ([NCall k c id text inform wait; NFound (ByCall k) c false] ++
       ifb rec [NInbox (ByCall k) (MStatus id (Pending text inform))] ++
       [NOutFail (ByCall k); NReturn k RBroadcastError])
| CtRemote (rec reg : bool) (r : send_result) : bcast = true ->
    (wait && reg = false -> r = RSent)%bool -> (r = RSent \/ r = RLost) ->
    call_trace name bcast k c id text inform wait rec reg
      ([NCall k c id text inform wait; NFound (ByCall k) c false] ++
       ifb rec [NInbox (ByCall k) (MStatus id (Pending text inform))] ++
       [NOut (ByCall k) (MsgWs {| wm_conn := c; wm_source := name; wm_inform := inform; wm_id := id; wm_text := text |})] ++
       ifb (wait && reg) [NInbox (ByCall k) (MWait id k)] ++
       [NReturn k r]).

(** Bus traffic read off the log. *)
Definition published (log : list (nat * nlog)) : list wrapped :=
  flat_map (fun e => match snd e with NForward w true => [w] | _ => [] end) log.
Definition given (l : list nlog) : list bus_message :=
  flat_map (fun e => match e with NOut _ m => [m] | _ => [] end) l.
Definition forwarded (l : list nlog) : list wrapped :=
  flat_map (fun e => match e with NForward w _ => [w] | _ => [] end) l.
Definition taken (l : list nlog) : list wrapped :=
  flat_map (fun e => match e with NTake w => [w] | _ => [] end) l.
Definition heard (l : list nlog) : list bus_message :=
  flat_map (fun e => match e with NHear m => [m] | _ => [] end) l.
(** A node is meant to process [w]: it is from another node and, if it is an
    acknowledgement, it is for this node. *)
Definition addressed (bus : string) (w : wrapped) : Prop :=
  wr_source w <> bus /\ forall node id, wr_message w = MsgAck node id -> node = bus.

(** The tracker's own log *)
Definition tracker_log (l : list nlog) : list ack_log :=
  flat_map (fun e => match e with NWorker a => [a] | _ => [] end) l.
Definition to_tracker (l : list nlog) : list worker_msg :=
  flat_map (fun e => match e with NInbox _ m => [m] | _ => [] end) l.

(** Nothing is under way on the bus: every queue is empty and every listener idle. *)
Definition settled (c : cluster) : Prop :=
  forall i, (i < cl_size c)%nat -> let n := cl_node c i in
    n_out n = [] /\ n_sub n = [] /\ n_in n = [] /\ n_inbox n = [] /\ n_listener n = LIdle.
(** A step of the bus, the listeners or the trackers' queues, as opposed to new
    calls, connections, timers or retries; all of them succeed. *)
Definition internal (ev : node_event) : bool :=
  match ev with EWorkerRecv _ | EListen true | EForward true | ETake => true | _ => false end.

(** How often node-side delivery of [m] wrote to the socket, and how often [m] was
    published by a node other than the one called [bus]. *)
Definition ws_eq_dec (a b : ws_message) : {a = b} + {a <> b}.
Proof. decide equality; try apply string_dec. apply list_eq_dec, string_dec. Defined.
Definition remote_writes (m : ws_message) (l : list nlog) : nat :=
  length (filter (fun e => match e with NWrite (ByListener x) _ _ _ => if ws_eq_dec x m then true else false | _ => false end) l).
Definition publications (bus : string) (m : ws_message) (ws : list wrapped) : nat :=
  length (filter (fun w => if string_dec (wr_source w) bus then false else
    match wr_message w with MsgWs x => if ws_eq_dec x m then true else false | _ => false end) ws).
(** ... and how often it was dropped instead: already received, or no such connection. *)
Definition remote_drops (m : ws_message) (l : list nlog) : nat :=
  length (filter (fun e => match e with
    | NSkip x | NFound (ByListener x) _ false => if ws_eq_dec x m then true else false
    | _ => false end) l).
