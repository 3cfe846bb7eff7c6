(** The SQS consumer: the polling task and the heartbeat tasks that extend the visibility
    timeout, libs/runtime/consumer-sqs/src/message_consumer.rs (below: M) and
    visibility_timeout.rs (below: V).

    Every await point is a state of the task; an answer of the queue service, of the handler
    or of a timer is a step.  The requests sent and the answers of the handler are events.
    Batches are numbered in the order they are received; the numbers are not in the code. *)
From Verif Require Import Base.
Local Open Scope list_scope.

(** aws_sdk_sqs [Message]: the fields that are used. (M 215-221, V 99-105). *)
Record message := mk_message { m_id : option string; m_receipt : option string; m_body : string }.
(** An entry of a batch request. (M 217-221, V 101-105): id and receipt handle. *)
Definition entry : Type := string * string.

(** M 14-28 without the attribute names and the queue *)
Record config := mk_config {
  c_polling_wait_ms : N; c_batch_size : option Z; c_handler_timeout : N; c_visibility : option Z;
  c_wait_seconds : option Z; c_auth_error_timeout : option N; c_terminate : bool;
  c_delete : bool; c_delete_on_failure : option bool }.
(** M 30-44 *)
Record final := mk_final {
  f_polling_wait_ms : N; f_batch_size : Z; f_handler_timeout : N; f_visibility : Z;
  f_wait_seconds : Z; f_auth_error_timeout : N; f_terminate : bool;
  f_delete : bool; f_delete_on_failure : bool }.
(** unwrap_or, M 69-78, V 91-92 *)
Definition or_default {A} (d : A) (o : option A) : A := match o with Some a => a | None => d end.
(** M 61-88 *)
Definition finalise (c : config) : final :=
  mk_final (c_polling_wait_ms c) (or_default 1%Z (c_batch_size c)) (c_handler_timeout c) (or_default 30%Z (c_visibility c))
    (or_default 20%Z (c_wait_seconds c)) (or_default 10%N (c_auth_error_timeout c)) (c_terminate c)
    (c_delete c) (or_default true (c_delete_on_failure c)).
(** V 27-31 *)
Record ext_config := mk_ext { e_visibility : option Z; e_interval : option N }.

(** errors.rs 5-10 *)
Definition is_connection_error (status : N) (code : option string) : bool :=
  (status =? 403)%N || match code with Some c => String.eqb c "CredentialsError" || String.eqb c "UnknownEndpoint" | None => false end.
(** What [receive_message] can fail with: an error of the service or anything else. (M 99-102, 236-247). *)
Inductive receive_error := ServiceError (status : N) (code : option string) | OtherError.
(** consumers.rs 23-27 and success *)
Inductive result := Done | Failed | TimedOut | Missing.
(** M 268, 271-273 *)
Definition is_err (r : result) : bool := match r with Done => false | _ => true end.

(** The builders of batch entries need an id and a receipt handle; [unwrap] panics. M 214-223, V 98-107. *)
Fixpoint entries (ms : list message) : option (list entry) :=
  match ms with
  | [] => Some []
  | m :: ms' =>
      match m_id m, m_receipt m, entries ms' with
      | Some i, Some r, Some es => Some ((i, r) :: es)
      | _, _, _ => None
      end
  end.
(** M 159-165 *)
Inductive call := Single (m : message) | Batch (ms : list message).
(** M 159-165 *)
Definition handler_call (ms : list message) : call := match ms with [m] => Single m | _ => Batch ms end.

(** Requests to the service, calls of the handler and the sleep: M 95-114, 148-182, 208-232, 236-274, V 63-111; [EPanic]: M 221, V 105 *)
Inductive event :=
| EReceive (wait batch visibility : Z)        (* a receive request *)
| EReceived (b : nat) (ms : list message)     (* its answer *)
| EReceiveError (e : receive_error)
| EHandler (b : nat) (c : call)               (* the handler is called *)
| EHandled (b : nat) (r : result)             (* how handling ended *)
| EDelete (b : nat) (es : list entry)         (* a delete request *)
| EExtend (b : nat) (es : list entry) (t : Z) (* a visibility request of the heartbeat *)
| ETerminate (b : nat) (es : list entry) (t : Z) (* a visibility request of the consumer *)
| EPause (ms : N)
| EHandlerPanic (b : nat)                     (* the handler panics, and the polling task with it *)
| EPanic.                                     (* the polling task panics by itself *)

(** The polling task *)
Inductive pc :=
| Idle | Receiving
| Got (b : nat) (ms : list message)               (* M 249-257 *)
| Handling (b : nat) (ms : list message)          (* M 259 *)
| Handled (b : nat) (ms : list message) (r : result)      (* M 185-206 *)
| Deleting (b : nat) (ms : list message) (r : result)     (* M 208-232 *)
| After (b : nat) (ms : list message) (r : result)        (* M 271-274, 167-171 *)
| Terminating                                     (* M 173-176 *)
| Sleeping (ms : N)                               (* M 112 *)
| Dead.
(** A heartbeat task.  A poll of the [select] (V 54-57) looks at its two branches in either
    order: [HCommitted] has found no stop signal and goes on with the heartbeat, [HCheck] has
    run the heartbeat and is about to look for the signal.  An answer to the request of
    before may be there at any time and is not modelled. *)
Inductive hpc := HWait | HCommitted | HCheck.
(** A task of V 43-61 and its kill signal (V 47, M 254-265) *)
Record heartbeat := mk_hb { h_batch : nat; h_msgs : list message; h_stop : bool; h_pc : hpc }.
(** M 95-114 with the tasks of V 43-61 *)
Record state := mk_state { s_pc : pc; s_next : nat; s_hbs : list heartbeat }.
(** M 95-96 *)
Definition init : state := mk_state Idle 0 [].

(** M 260-266: the stop signal *)
Definition stop (b : nat) (hbs : list heartbeat) : list heartbeat :=
  map (fun h => if Nat.eqb (h_batch h) b then mk_hb (h_batch h) (h_msgs h) true (h_pc h) else h) hbs.

Section Config.
Variable c : config.
Variable x : ext_config.
(** M 90-92: a handler was registered *)
Variable registered : bool.
(** M 61-88 *)
Definition f : final := finalise c.

(** M 190-206 *)
Definition deletes (ms : list message) (r : result) : bool :=
  f_delete f && negb (is_err r && negb (f_delete_on_failure f)) && match ms with [] => false | _ => true end.
(** V 92-93 *)
Definition extension (t : option Z) : Z := or_default (or_default 30%Z (e_visibility x)) t.
(** M 97-111 *)
Definition pause_after (e : option receive_error) : N :=
  match e with
  | Some (ServiceError status code) => if is_connection_error status code then f_auth_error_timeout f else f_polling_wait_ms f
  | _ => f_polling_wait_ms f
  end.
(** V 44: heartbeats only with an interval *)
Definition spawn (b : nat) (ms : list message) (hbs : list heartbeat) : list heartbeat :=
  match e_interval x with Some _ => hbs ++ [mk_hb b ms false HWait] | None => hbs end.

(** Steps of the polling task. M 95-294. *)
Inductive main_step : state -> option event -> state -> Prop :=
(** M 237-247 *)
| M_receive n hs : main_step (mk_state Idle n hs) (Some (EReceive (f_wait_seconds f) (f_batch_size f) (f_visibility f))) (mk_state Receiving n hs)
| M_received n hs ms : main_step (mk_state Receiving n hs) (Some (EReceived n ms)) (mk_state (Got n ms) (S n) hs)
| M_receive_error n hs e : main_step (mk_state Receiving n hs) (Some (EReceiveError e)) (mk_state (Sleeping (pause_after (Some e))) n hs)
(** M 249-260 and 117-134: the heartbeat is spawned before the handler is called *)
| M_handler n hs b ms : registered = true -> main_step (mk_state (Got b ms) n hs) (Some (EHandler b (handler_call ms))) (mk_state (Handling b ms) n (spawn b ms hs))
| M_missing n hs b ms : registered = false -> main_step (mk_state (Got b ms) n hs) (Some (EHandled b Missing)) (mk_state (Handled b ms Missing) n (stop b (spawn b ms hs)))
(** M 148-156: the handler returned or the time was up *)
| M_done n hs b ms r : r <> Missing -> main_step (mk_state (Handling b ms) n hs) (Some (EHandled b r)) (mk_state (Handled b ms r) n (stop b hs))
(** Nothing catches a panic of the handler. *)
| M_handler_panic n hs b ms : main_step (mk_state (Handling b ms) n hs) (Some (EHandlerPanic b)) (mk_state Dead n (stop b hs))
(** M 190-206 *)
| M_keep n hs b ms r : deletes ms r = false -> main_step (mk_state (Handled b ms r) n hs) None (mk_state (After b ms r) n hs)
(** M 208-226 *)
| M_delete n hs b ms r es : deletes ms r = true -> entries ms = Some es -> main_step (mk_state (Handled b ms r) n hs) (Some (EDelete b es)) (mk_state (Deleting b ms r) n hs)
| M_delete_panic n hs b ms r : deletes ms r = true -> entries ms = None -> main_step (mk_state (Handled b ms r) n hs) (Some EPanic) (mk_state Dead n hs)
(** M 228-232: success or failure, the result is dropped *)
| M_deleted n hs b ms r : main_step (mk_state (Deleting b ms r) n hs) None (mk_state (After b ms r) n hs)
(** M 271-292 *)
| M_ok n hs b ms : main_step (mk_state (After b ms Done) n hs) None (mk_state (Sleeping (pause_after None)) n hs)
| M_leave n hs b ms r : is_err r = true -> f_terminate f = false -> main_step (mk_state (After b ms r) n hs) None (mk_state (Sleeping (pause_after None)) n hs)
(** M 274, 173-176 and V 85-111 *)
| M_terminate n hs b ms r es : is_err r = true -> f_terminate f = true -> entries ms = Some es ->
    main_step (mk_state (After b ms r) n hs) (Some (ETerminate b es (extension (Some 0%Z)))) (mk_state Terminating n hs)
| M_terminate_panic n hs b ms r : is_err r = true -> f_terminate f = true -> entries ms = None ->
    main_step (mk_state (After b ms r) n hs) (Some EPanic) (mk_state Dead n hs)
(** M 178-182 *)
| M_terminated n hs : main_step (mk_state Terminating n hs) None (mk_state (Sleeping (pause_after None)) n hs)
(** M 112 *)
| M_sleep n hs t : main_step (mk_state (Sleeping t) n hs) (Some (EPause t)) (mk_state Idle n hs).

(** Steps of a heartbeat task, V 43-83 *)
Inductive hb_step : heartbeat -> option event -> option heartbeat -> Prop :=
(** the signal is looked for first *)
| H_stop b ms q : hb_step (mk_hb b ms true q) None None
| H_commit b ms : hb_step (mk_hb b ms false HWait) None (Some (mk_hb b ms false HCommitted))
(** the heartbeat after or before the look for the signal; an interval of zero or an entry
    without id or handle panics *)
| H_extend b ms k es : e_interval x <> Some 0%N -> entries ms = Some es -> hb_step (mk_hb b ms k HCommitted) (Some (EExtend b es (extension None))) (Some (mk_hb b ms k HWait))
| H_extend_first b ms k es : e_interval x <> Some 0%N -> entries ms = Some es -> hb_step (mk_hb b ms k HWait) (Some (EExtend b es (extension None))) (Some (mk_hb b ms k HCheck))
| H_panic b ms k q : entries ms = None \/ e_interval x = Some 0%N -> hb_step (mk_hb b ms k q) None None
(** no tick, or no signal *)
| H_idle b ms k : hb_step (mk_hb b ms k HCommitted) None (Some (mk_hb b ms k HWait))
| H_no_signal b ms : hb_step (mk_hb b ms false HCheck) None (Some (mk_hb b ms false HWait)).
(** At most one request or call per step of M 95-294 *)
Definition opt_list {A} (o : option A) : list A := match o with Some a => [a] | None => [] end.
(** M 95-294 and V 43-83, interleaved *)
Inductive step : state -> option event -> state -> Prop :=
| S_main s e s' : main_step s e s' -> step s e s'
| S_hb p n l h r e h' : hb_step h e h' -> step (mk_state p n (l ++ h :: r)) e (mk_state p n (l ++ opt_list h' ++ r)).
(** M 95-114: all executions of [start] with the heartbeats it spawns *)
Inductive exec : list event -> state -> Prop :=
| X_init : exec [] init
| X_step tr s e s' : exec tr s -> step s e s' -> exec (tr ++ opt_list e) s'.
End Config.
