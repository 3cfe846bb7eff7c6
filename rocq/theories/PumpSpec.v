(** Vocabulary for C151: what a node with bounded channels can come to. *)
From Verif Require Import Base AckModel ClusterModel ClusterSpec PumpModel.
Open Scope string_scope.
Local Open Scope list_scope.

(** Channels that can hold something; tokio has no others. *)
Definition sized (K : caps) : Prop := (1 <= cap_out K /\ 1 <= cap_in K /\ 1 <= cap_ack K /\ 1 <= cap_act K)%nat.

(** Any number of nodes, each with any names and settings, starting empty. *)
Definition bfresh (c : bcluster) : Prop :=
  forall i, exists name bus bcast cf, bc_node c i = {| b_node := new_node name bus bcast cf; b_hand := None |}.
Definition breachable (K : caps) (c0 c : bcluster) (log : list (nat * nlog)) : Prop :=
  bfresh c0 /\ exists evs, bcrun K c0 [] evs = Some (c, log).

(** The same nodes with unbounded channels. *)
Definition unbounded (c : bcluster) : cluster := {| cl_size := bc_size c; cl_node := fun i => b_node (bc_node c i) |}.

(** The node is jammed: its Redis task waits to pass a message to the full incoming
    channel, and its listener waits to pass an acknowledgement to the full outgoing one. *)
Definition jammed (K : caps) (b : bnode) : Prop :=
  (exists m, b_hand b = Some m) /\ (cap_in K <= length (n_in (b_node b)))%nat /\
  (exists m, n_listener (b_node b) = LAck m) /\ n_bcast (b_node b) = true /\ (cap_out K <= length (n_out (b_node b)))%nat.
(** Nothing is under way on the node. *)
Definition at_rest (b : bnode) : Prop :=
  b_hand b = None /\ n_out (b_node b) = [] /\ n_sub (b_node b) = [] /\ n_in (b_node b) = [] /\ n_inbox (b_node b) = [] /\
  n_listener (b_node b) = LIdle.

(** The node had to do with the bus: it published or took a message, heard one, wrote
    one from another node to a socket, or gave one to the broadcaster. *)
Definition bus_work (e : nlog) : bool :=
  match e with
  | NForward _ _ | NTake _ | NHear _ | NOut _ _ | NOutFail _ => true
  | NWrite (ByListener _) _ _ _ => true
  | _ => false
  end.

(** A step of the bus, the listeners or the trackers' queues; all of them succeed. *)
Definition binternal (ev : bevent) : bool :=
  match ev with BEv e => internal e | BTake | BPush => true end.

(** Any step of a task of the node but the clock and the polls of those who wait: also of
    the calls, of the tracker's rounds and of the task that acts on its decisions. *)
Definition bwork (ev : bevent) : bool :=
  binternal ev ||
  match ev with
  | BEv (EJob _ true) | BEv (EConsumer true) | BEv (EWorker WScan) | BEv (EWorker WSend) | BEv (EWorker WForget) => true
  | _ => false
  end.
(** Besides, no round of the tracker is under way, all it decided has been acted on unless
    the task for that has died, and every call has returned or waits for an answer. *)
Definition all_rest (b : bnode) : Prop :=
  at_rest b /\ w_ticker (n_worker (b_node b)) = TIdle /\
  (n_consumer (b_node b) = CDead \/ n_consumer (b_node b) = CIdle /\ n_actions (b_node b) = []) /\
  (forall j, In j (n_jobs (b_node b)) -> j_phase j = PAwait \/ exists r, j_phase j = PDone r).

(** The calls among what happened, and what went right: no write, no publication and no
    call failed. *)
Definition is_call (e : nlog) : bool := match e with NCall _ _ _ _ _ _ => true | _ => false end.
Definition went_right (e : nlog) : bool :=
  match e with
  | NWrite _ _ _ ok | NWriteLost _ _ ok | NForward _ ok => ok
  | NOutFail _ => false
  | NReturn _ r => match r with RSent => true | _ => false end
  | _ => true
  end.

(** No channel holds more than it has room for.  The action channel is gone once its
    reader has died. *)
Definition within (K : caps) (b : bnode) : Prop :=
  (length (n_out (b_node b)) <= cap_out K)%nat /\ (length (n_in (b_node b)) <= cap_in K)%nat /\
  (length (n_inbox (b_node b)) <= cap_ack K)%nat /\ (n_consumer (b_node b) <> CDead -> (length (n_actions (b_node b)) <= cap_act K)%nat).
