(** Model of the bounded channels between the tasks of a node:
    libs/runtime/ws-redis/src/pubsub.rs 86-163 (the Redis task) and
    libs/runtime/ws-registry/src/registry.rs 99-225, on top of ClusterModel.v, whose
    queues have no bounds.  A send into a full channel waits, so the step is not
    possible; the sender does nothing else meanwhile, because every task of a node is
    one loop.  The Redis task waits inside its select branch, so while it holds a
    message that does not fit it takes nothing from either of its sources.
    Simplifications: the Redis task does not end (pubsub.rs 126-129 and 157-159 need the
    listener or every sender to be gone), so a send to the broadcaster waits and does
    not fail; hearing a message and passing it to the tracker is one step; a task that
    waits for room inside the ack_sender mutex only delays others that need room in the
    same channel. *)
From Verif Require Import Base AckModel ClusterModel.
Open Scope string_scope.
Local Open Scope list_scope.

(** The capacities: the outgoing channel (pubsub.rs 96), the incoming channel (98), the
    tracker's channel (registry.rs 104) and the action channel (105-106). *)
Record caps := { cap_out : nat; cap_in : nat; cap_ack : nat; cap_act : nat }.
(** pubsub.rs 96 and 98, registry.rs 104-106 *)
Definition code_caps : caps := {| cap_out := 1024; cap_in := 1024; cap_ack := 1024; cap_act := 1024 |}.

(** A node and the message its Redis task is waiting to pass on (pubsub.rs 125-129). *)
Record bnode := { b_node : node; b_hand : option bus_message }.

(** tokio's mpsc send waits when the channel is full (pubsub.rs 126, registry.rs 202-207, 264, 275, 288, 316, 372-380, acks.rs 261) *)
Definition room {A} (q : list A) (cap : nat) : bool := Nat.ltb (length q) cap.

(** registry.rs 346-387: which awaits of a send need room.  Lines 365-370 and 382-384
    (the tracker's channel, by way of 281-296 and 304-308) and 372-380 (the broadcaster). *)
Definition send_gate (K : caps) (n : node) (p : sphase) (ok : bool) : bool :=
  match p with
  | PRecord | PRegister => if n_started n then room (n_inbox n) (cap_ack K) else true
  | PPublish => ok && room (n_out n) (cap_out K)
  | _ => true
  end.

(** Whether the channels let a step of ClusterModel.v happen. *)
Definition gate (K : caps) (b : bnode) (ev : node_event) : bool :=
  let n := b_node b in
  match ev with
  | EJob k ok => match nth_error (n_jobs n) k with Some j => send_gate K n (j_phase j) ok | None => true end
  | EConsumer ok => match n_consumer n with CSend j => send_gate K n (j_phase j) ok | _ => true end
  (* acks.rs 261: a dead consumer has dropped its receiver, and the send fails at once *)
  | EWorker WSend => match n_consumer n with CDead => true | _ => room (n_actions n) (cap_act K) end
  (* registry.rs 179 and 218-220 need the tracker, 201-208 the broadcaster *)
  | EListen ok =>
      match n_listener n with
      | LIdle => if n_started n then room (n_inbox n) (cap_ack K) else true
      | LAck _ => if n_bcast n then ok && room (n_out n) (cap_out K) else true
      | _ => true
      end
  (* pubsub.rs 102-103 and 138: the second branch of the select runs only when the first one does not *)
  | EForward _ => match b_hand b with None => true | Some _ => false end
  | ETake => false
  | _ => true
  end.

(** The steps of ClusterModel.v (registry.rs 99-233, 346-387, acks.rs 142-310, pubsub.rs 138-156), and those of the Redis task that pass a message on (pubsub.rs 103-137) *)
Inductive bevent :=
| BEv (ev : node_event)   (* a step of ClusterModel.v other than ETake *)
| BTake                   (* the Redis task takes a message from the subscription *)
| BPush.                  (* ... and passes it on *)

Definition bnstep (K : caps) (b : bnode) (ev : bevent) : option (bnode * list nlog * list wrapped) :=
  match ev with
  | BEv e =>
      if gate K b e then
        match nstep (b_node b) e with
        | Some (n', l, ws) => Some ({| b_node := n'; b_hand := b_hand b |}, l, ws)
        | None => None
        end
      else None
  (* pubsub.rs 103-124 *)
  | BTake =>
      match b_hand b, n_sub (b_node b) with
      | None, w :: rest =>
          Some ({| b_node := set_sub (b_node b) rest;
                   b_hand := if relevant (n_bus (b_node b)) w then Some (wr_message w) else None |}, [NTake w], [])
      | _, _ => None
      end
  (* pubsub.rs 125-126 *)
  | BPush =>
      match b_hand b with
      | Some m =>
          if room (n_in (b_node b)) (cap_in K)
          then Some ({| b_node := set_in (b_node b) (n_in (b_node b) ++ [m]); b_hand := None |}, [], [])
          else None
      | None => None
      end
  end.

(** A cluster of such nodes: as in ClusterModel.v, a published message reaches every
    subscription, which has no bound (pubsub.rs 89). *)
Record bcluster := { bc_size : nat; bc_node : nat -> bnode }.
(** pubsub.rs 89, 152: the channel of a subscription has no bound *)
Definition bpublish (ws : list wrapped) (b : bnode) : bnode := {| b_node := publish ws (b_node b); b_hand := b_hand b |}.
(** pubsub.rs 152: what a step of a node publishes reaches all *)
Definition bcstep (K : caps) (c : bcluster) (i : nat) (ev : bevent) : option (bcluster * list (nat * nlog)) :=
  if Nat.ltb i (bc_size c) then
    match bnstep K (bc_node c i) ev with
    | Some (b', l, ws) =>
        Some ({| bc_size := bc_size c; bc_node := fun j => bpublish ws (if Nat.eqb j i then b' else bc_node c j) |},
              map (fun e => (i, e)) l)
    | None => None
    end
  else None.
(** pubsub.rs 100-162 and registry.rs 99-387 on all nodes, as scheduled *)
Fixpoint bcrun (K : caps) (c : bcluster) (log : list (nat * nlog)) (evs : list (nat * bevent)) : option (bcluster * list (nat * nlog)) :=
  match evs with
  | [] => Some (c, log)
  | (i, ev) :: evs' =>
      match bcstep K c i ev with
      | Some (c', out) => bcrun K c' (log ++ out) evs'
      | None => None
      end
  end.
