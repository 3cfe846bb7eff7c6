(** The two tasks of a node that work through a queue and write to the sockets of clients,
    /repo/libs/runtime/ws-registry/src/registry.rs (below: R): the listener for messages of the
    other nodes (R 172-225) and the loop over the actions of the ack worker (R 118-162).  Sessions,
    sockets and their locks are those of [WsModel].

    Simplified: queues and channels are unbounded; the ack worker always answers, and answers
    anything (see [AckModel]); a socket that has been locked can be written to. *)
From Verif Require Import Base Value Bytes WsModel LostModel.
Local Open Scope list_scope.

(** What arrives at the listener, and at the loop over actions. (R 176-222, 119-160; types.rs 8-33, acks.rs 38-54). *)
Inductive item :=
| FromNode (conn mid msg source : text)
| AckFromNode (mid : text)
| Resend (client mid msg : text) (inform : list text)
| LostMessage (mid : text) (inform : list text).
(** The tasks of R 172-225 and R 118-162 *)
Inductive side := Listener | Actions.
(** Which of them receives what: R 175-176, 118-119 *)
Definition side_of (i : item) : side := match i with FromNode _ _ _ _ | AckFromNode _ => Listener | _ => Actions end.
(** What a task does apart from writing to sockets. (R 201-215, 220, 365-370, 372-380). *)
Inductive effect :=
| PublishAck (mid node : text)
| RecordReceived (mid : text)
| RecordPending (mid msg : text) (inform : list text)
| Publish (conn mid msg : text) (inform : list text).
(** A socket is looked up, locked and written to, or it is not here. R 184-199, 353-361. *)
Inductive task := Write (conn msg : text) (sent not_here : list effect) | Do (f : effect).
(** R 175-223 ([dup]: the answer of the ack worker, R 179), R 118-161 with R 346-384; the text of
    a lost-message event is its bytes *)
Definition tasks_of (dup : bool) (i : item) : list task :=
  match i with
  | FromNode conn mid msg source => if dup then [] else [Write conn msg [PublishAck mid source] []]
  | AckFromNode mid => [Do (RecordReceived mid)]
  | Resend client mid msg inform => [Write client msg [] [RecordPending mid msg inform; Publish client mid msg inform]]
  | LostMessage mid inform => map (fun c => Write c (lost_event mid) [] []) inform
  end.

(** A task between two awaits: its queue, what is left to do for the current item, and the write that it waits for (R 191-193, 359-361) *)
Record loop := mk_loop { l_queue : list item; l_todo : list task; l_job : option (nat * task) }.
(** R 61-79 with the two tasks *)
Record node := mk_node { n_ws : state; n_loop : side -> loop }.
(** R 172-225 and 118-162: a step of one task *)
Definition set_loop (n : node) (ws : state) (sd : side) (l : loop) : node :=
  mk_node ws (fun x => match x, sd with Listener, Listener | Actions, Actions => l | _, _ => n_loop n x end).
(** R 82-93, 99-118, 172-175 *)
Definition start : node := mk_node init (fun _ => mk_loop [] [] None).

(** R 118-162, 172-225; events of sessions and sockets as in WsModel.v *)
Inductive nevent :=
| Ws (e : event)
| Arrives (i : item)
| Takes (i : item)
| Does (sd : side) (f : effect).

Section Node.
Variable parse : text -> option value.
Variable key : text.
Variable routes : text -> bool.
(** R 118-162, 172-225, one await at a time; N_ws is a step of WsModel.v *)
Inductive nstep : node -> list nevent -> node -> Prop :=
| N_ws n es ws : step parse key routes (n_ws n) es ws -> nstep n (map Ws es) (mk_node ws (n_loop n))
| N_arrives n i : nstep n [Arrives i]
    (set_loop n (n_ws n) (side_of i) (mk_loop (l_queue (n_loop n (side_of i)) ++ [i]) (l_todo (n_loop n (side_of i))) (l_job (n_loop n (side_of i)))))
(** the next item is received when the last one is done with *)
| N_takes n i q dup : n_loop n (side_of i) = mk_loop (i :: q) [] None ->
    nstep n [Takes i] (set_loop n (n_ws n) (side_of i) (mk_loop q (tasks_of dup i) None))
| N_do n sd q f r : n_loop n sd = mk_loop q (Do f :: r) None -> nstep n [Does sd f] (set_loop n (n_ws n) sd (mk_loop q r None))
| N_write n sd q conn msg a b r : n_loop n sd = mk_loop q (Write conn msg a b :: r) None ->
    nstep n [Ws (ESend (s_next_job (n_ws n)) conn msg)]
      (set_loop n (new_job (n_ws n) (Looking conn msg)) sd (mk_loop q r (Some (s_next_job (n_ws n), Write conn msg a b))))
| N_written n sd q conn msg a b r j : n_loop n sd = mk_loop q r (Some (j, Write conn msg a b)) -> s_jobs (n_ws n) j = Sent ->
    nstep n (map (Does sd) a) (set_loop n (n_ws n) sd (mk_loop q r None))
| N_not_here n sd q conn msg a b r j : n_loop n sd = mk_loop q r (Some (j, Write conn msg a b)) -> s_jobs (n_ws n) j = NotHere ->
    nstep n (map (Does sd) b) (set_loop n (n_ws n) sd (mk_loop q r None)).
(** R 118-162, 172-225, as scheduled *)
Inductive nrun : node -> list nevent -> node -> Prop :=
| N_refl n : nrun n [] n
| N_step n tr n1 es n2 : nrun n tr n1 -> nstep n1 es n2 -> nrun n (tr ++ es) n2.
End Node.
