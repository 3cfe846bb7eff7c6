(** Model of libs/runtime/ws-registry/src/acks.rs: the acknowledgement worker.

    The worker is three kinds of tasks sharing a map behind a mutex: the main loop
    receiving messages (lines 142-180), the periodic checker (124-139, 210-270) and
    one task per waiter (272-310).  Each critical section is one atomic step; every
    interleaving of steps is a schedule.  Instants are milliseconds as numbers.
    The iteration order of the map is the order of the association list.
    Answers and actions leave as log entries; a dropped receiver (the error! lines)
    changes nothing else and is not modelled; channel capacities only delay steps. *)
From Verif Require Import Base.
Open Scope string_scope.
Local Open Scope N_scope.

(** acks.rs 26-36 *)
Inductive ack_status :=
| Pending (message : string) (clients : list string)
| Received
| Lost.

(** acks.rs 46-54 (with ResendMessageInfo 38-44) *)
Inductive action :=
| Resend (client_id message_id message : string) (inform : list string)
| ActLost (message_id : string) (clients : list string).

(** acks.rs 56-60; [tx] names the oneshot channel of the asker *)
Inductive worker_msg :=
| MStatus (id : string) (st : ack_status)
| MCheck (id : string) (tx : nat)
| MWait (id : string) (tx : nat).

(** acks.rs 62-67 *)
Record entry := { en_status : ack_status; en_attempts : N; en_last : option N }.

(** types.rs 37-47 and acks.rs 13-21, 86-96 *)
Record ack_config := { cf_timeout : N; cf_max : N }.
(** Worker::new, acks.rs 85-96, with the defaults of 17 and 21; the interval of the checks (13) is when the schedule lets it check *)
Definition ack_config_of (timeout max : option N) : ack_config :=
  {| cf_timeout := match timeout with Some t => t | None => 15000 end;
     cf_max := match max with Some m => m | None => 4 end |}.

(** Where the periodic checker is: waiting for its interval; holding the [now] of
    line 217 and waiting for the lock; sending the collected actions; between
    sending a lost action and removing the message. *)
Inductive ticker :=
| TIdle
| TScan (now : N)
| TSend (todo : list action)
| TForget (id : string) (todo : list action).

(** acks.rs 69-82 and the tasks started in 124-139 and 162-176 *)
Record worker := { w_acks : smap entry; w_ticker : ticker; w_waits : list (string * nat) }.
(** acks.rs 85-96 *)
Definition new_worker : worker := {| w_acks := []; w_ticker := TIdle; w_waits := [] |}.

(** What the worker did, in order. acks.rs 142-180, 185-207, 210-270 and 272-310. *)
Inductive ack_log :=
| LRecord (id : string) (st : ack_status) (now : N)   (* a status was recorded *)
| LForget (id : string)                               (* the message was forgotten *)
| LDecide (now : N) (a : action)                      (* the checker decided on an action *)
| LAction (a : action)                                (* the action was sent to the registry *)
| LCheck (id : string) (tx : nat) (st : ack_status)   (* a check was answered *)
| LWait (id : string) (tx : nat) (st : ack_status).   (* a waiter was answered *)

(** the patterns of acks.rs 189, 223 and 286 *)
Definition is_pending (st : ack_status) : bool :=
  match st with Pending _ _ => true | _ => false end.

(** acks.rs 185-207 *)
Definition record_ack (m : smap entry) (id : string) (st : ack_status) (now : N) : smap entry :=
  let old := lookup id m in
  let attempts := match old with Some e => en_attempts e | None => 0 end in
  insert id
    (if is_pending st
     then {| en_status := st; en_attempts := attempts + 1; en_last := Some now |}
     else {| en_status := st; en_attempts := attempts;
             en_last := match old with Some e => en_last e | None => None end |}) m.

(** Loop body of acks.rs 222-244.  [duration_since] saturates at zero. *)
Definition decide (cf : ack_config) (now : N) (kv : string * entry) : list action :=
  let (id, e) := kv in
  match en_status e with
  | Pending message clients =>
      match en_last e with
      | Some t =>
          if cf_timeout cf <? now - t then
            [if cf_max cf <=? en_attempts e then ActLost id clients
             else Resend id id message clients]
          else []
      | None => []
      end
  | _ => []
  end.

(** acks.rs 147-159 *)
Definition check_answer (m : smap entry) (id : string) : ack_status :=
  match lookup id m with Some e => en_status e | None => Lost end.

(** acks.rs 281-305: nothing while pending *)
Definition wait_answer (m : smap entry) (id : string) : option ack_status :=
  match lookup id m with
  | Some e => if is_pending (en_status e) then None else Some (en_status e)
  | None => Some Lost
  end.

(** The task of a waiter that was answered ends (acks.rs 272-310) *)
Fixpoint remove_nth {A} (n : nat) (l : list A) : list A :=
  match n, l with
  | _, [] => []
  | O, _ :: l' => l'
  | S n', x :: l' => x :: remove_nth n' l'
  end.

(** The tasks of acks.rs 142-180 (main loop), 124-139 and 210-270 (checker) and 272-310 (waiters) *)
Inductive worker_event :=
| WRecv (m : worker_msg) (now : N)  (* main loop receives [m] at [now] *)
| WTick (now : N)                   (* the interval fires; line 217 reads [now] *)
| WScan                             (* lines 220-247 under the lock *)
| WSend                             (* line 261: next action sent *)
| WForget                           (* lines 268-270 *)
| WPoll (i : nat).                  (* waiter [i] polls *)

(** One step, or [None] when the event is not possible in this state. acks.rs 142-180, 210-270, 272-310. *)
Definition wstep (cf : ack_config) (w : worker) (ev : worker_event)
  : option (worker * list ack_log) :=
  match ev with
  | WRecv (MStatus id st) now =>
      Some ({| w_acks := record_ack (w_acks w) id st now; w_ticker := w_ticker w; w_waits := w_waits w |},
            [LRecord id st now])
  | WRecv (MCheck id tx) _ => Some (w, [LCheck id tx (check_answer (w_acks w) id)])
  | WRecv (MWait id tx) _ =>
      Some ({| w_acks := w_acks w; w_ticker := w_ticker w; w_waits := w_waits w ++ [(id, tx)] |}, [])
  | WTick now =>
      match w_ticker w with
      | TIdle => Some ({| w_acks := w_acks w; w_ticker := TScan now; w_waits := w_waits w |}, [])
      | _ => None
      end
  | WScan =>
      match w_ticker w with
      | TScan now =>
          let acts := flat_map (decide cf now) (w_acks w) in
          Some ({| w_acks := w_acks w;
                   w_ticker := match acts with [] => TIdle | _ => TSend acts end;
                   w_waits := w_waits w |}, map (LDecide now) acts)
      | _ => None
      end
  | WSend =>
      match w_ticker w with
      | TSend (a :: rest) =>
          Some ({| w_acks := w_acks w;
                   w_ticker := match a with
                               | ActLost id _ => TForget id rest
                               | Resend _ _ _ _ => match rest with [] => TIdle | _ => TSend rest end
                               end;
                   w_waits := w_waits w |}, [LAction a])
      | _ => None
      end
  | WForget =>
      match w_ticker w with
      | TForget id rest =>
          Some ({| w_acks := remove_key id (w_acks w);
                   w_ticker := match rest with [] => TIdle | _ => TSend rest end;
                   w_waits := w_waits w |}, [LForget id])
      | _ => None
      end
  | WPoll i =>
      match nth_error (w_waits w) i with
      | Some (id, tx) =>
          match wait_answer (w_acks w) id with
          | Some st =>
              Some ({| w_acks := w_acks w; w_ticker := w_ticker w; w_waits := remove_nth i (w_waits w) |},
                    [LWait id tx st])
          | None => Some (w, [])
          end
      | None => None
      end
  end.

(** A run of the worker: state and log after the events. acks.rs 105-183, as scheduled. *)
Fixpoint wrun (cf : ack_config) (w : worker) (log : list ack_log) (evs : list worker_event)
  : option (worker * list ack_log) :=
  match evs with
  | [] => Some (w, log)
  | ev :: evs' =>
      match wstep cf w ev with
      | Some (w', out) => wrun cf w' (log ++ out)%list evs'
      | None => None
      end
  end.
