(** WebSocket sessions, libs/runtime/core/src/websocket.rs (below: W), with the connections of
    libs/runtime/ws-registry/src/registry.rs (below: R) and request.rs.

    Every await point of a session is a phase.  Sending to a connection of this node is modelled
    as a task of its own; what happens when the connection is not found here is in
    [ClusterModel].  Sessions and sends are numbered; the numbers are not in the code. *)
From Verif Require Import Base Value Bytes.
Local Open Scope list_scope.

(** [std::str::from_utf8]: the text with this encoding, if there is one *)
Definition from_utf8 (l : list N) : option text :=
  if list_eq_dec N.eq_dec (utf8 (lossy l)) l then Some (lossy l) else None.

(** axum's [Message]; the contents of ping, pong and close frames are not used. (W 158-221) *)
Inductive frame := FText (t : text) | FBinary (l : list N) | FPing | FPong | FClose.
(** W 38-63 *)
Inductive body := JsonBody (v : value) | BinaryBody (l : list N).
(** What the handler of a route is called with; the event type is always "message", the message
    id is random and not modelled. W 38-74. *)
Record call := mk_call { c_route : text; c_body : body }.
(** W 158-221, 139-147: what becomes of a frame *)
Inductive verdict := Call (c : call) | Skip | Break | Crash.

Section Messages.
(** [serde_json::from_str] *)
Variable parse : text -> option value.
(** W 31-33: the key and the routes with a handler *)
Variable key : text.
Variable routes : text -> bool.

(** W 295-338 *)
Definition resolve_route (t : text) : option (text * value) :=
  match parse t with
  | Some (VObj m) => match get key m with Some (VStr r) => Some (r, VObj m) | _ => None end
  | _ => None
  end.
(** W 340-368: [None] is the panic of [msg_bytes[0]]; the other indexes are in range *)
Definition resolve_binary_route (l : list N) : option (option (text * list N)) :=
  match l with
  | [] => None
  | n :: l' =>
      Some (if (N.of_nat (length l') <? n)%N then None
            else match from_utf8 (firstn (N.to_nat n) l') with
                 | Some r => Some (r, skipn (N.to_nat n) l')
                 | None => None
                 end)
  end.
(** W 158-221 *)
Definition process (f : frame) : verdict :=
  match f with
  | FText t =>
      match resolve_route t with
      | Some (r, v) => if routes r then Call (mk_call r (JsonBody v)) else Skip
      | None => Skip
      end
  | FBinary l =>
      match resolve_binary_route l with
      | None => Crash
      | Some (Some (r, p)) => if routes r then Call (mk_call r (BinaryBody p)) else Skip
      | Some None => Skip
      end
  | FClose => Break
  | FPing | FPong => Skip
  end.

(** W 112-156 *)
Inductive phase :=
| Absent
| Starting                                (* W 118-120 *)
| Pausing                                 (* W 134-136 *)
| Asking                                  (* W 137 *)
| Reading                                 (* W 139 *)
| Working (c : call) (waits : option nat) (* W 140-142; the handler may wait for a message it sends *)
| Over
| Crashed.
(** Tasks in the queue of the lock of a socket (tokio's [Mutex] is fair); the first has the lock. W 137, R 359-361. *)
Inductive waiter := WSession | WSend (j : nat).
(** W 112-156: a run of it *)
Record session := mk_session { se_id : text; se_phase : phase; se_queue : list waiter }.
(** R 346-361, the branch for connections of this node *)
Inductive job := NoJob | Looking (id : text) (msg : text) | Queued (k : nat) (msg : text) | Sent | NotHere.
(** W 112-156, R: the connections; what of a node matters here *)
Record state := mk_state { s_next : nat; s_ses : nat -> session; s_reg : text -> option nat; s_jobs : nat -> job; s_next_job : nat }.
(** Before the first request (W 94) *)
Definition init : state := mk_state 0 (fun _ => mk_session [] Absent []) (fun _ => None) (fun _ => NoJob) 0.

(** What an observer of W 94-293 and R 346-361 sees *)
Inductive event :=
| EOpen (k : nat) (id : text)
| EFrame (k : nat) (f : frame)          (* a frame arrives *)
| EGone (k : nat)                       (* the client has gone *)
| ECall (k : nat) (c : call)            (* a handler is called *)
| EReturn (k : nat)                     (* it returns, with success or failure *)
| EEnd (k : nat)                        (* the session ends *)
| ECrash (k : nat)                      (* it panics *)
| ESend (j : nat) (id : text) (msg : text)      (* a message is to be sent to a connection *)
| EDeliver (j : nat) (k : nat) (msg : text).    (* it is written to the socket of a session *)

(** Not in the code: what is numbered is changed at one number (W 112-156) *)
Definition upd {A} (f : nat -> A) (k : nat) (a : A) : nat -> A := fun i => if Nat.eqb i k then a else f i.
(** R 232-233 and 236-238 *)
Definition put (r : text -> option nat) (id : text) (o : option nat) : text -> option nat := fun i => if text_eqb i id then o else r i.
(** A step of W 112-156 *)
Definition to_phase (se : session) (p : phase) : session := mk_session (se_id se) p (se_queue se).
(** The guard of the lock is dropped. W 139-147. *)
Definition release (se : session) : session := mk_session (se_id se) (se_phase se) (tl (se_queue se)).
(** W 137, R 359: the lock is asked for *)
Definition enqueue (w : waiter) (se : session) : session := mk_session (se_id se) (se_phase se) (se_queue se ++ [w]).
(** A step of W 112-156 *)
Definition set_ses (s : state) (k : nat) (se : session) : state := mk_state (s_next s) (upd (s_ses s) k se) (s_reg s) (s_jobs s) (s_next_job s).
(** W 121-123, 144, 149: the connections of R *)
Definition set_reg (s : state) (id : text) (o : option nat) : state := mk_state (s_next s) (s_ses s) (put (s_reg s) id o) (s_jobs s) (s_next_job s).
(** A step of R 353-361 *)
Definition set_job (s : state) (j : nat) (x : job) : state := mk_state (s_next s) (s_ses s) (s_reg s) (upd (s_jobs s) j x) (s_next_job s).
(** A call of R 346-361 begins *)
Definition new_job (s : state) (x : job) : state := mk_state (s_next s) (s_ses s) (s_reg s) (upd (s_jobs s) (s_next_job s) x) (S (s_next_job s)).

(** W 94-293, R 353-361: one step *)
Inductive step : state -> list event -> state -> Prop :=
(** W 94-110 and request.rs 11-23: the id is that of the request, which the client may choose *)
| S_open s id : step s [EOpen (s_next s) id] (mk_state (S (s_next s)) (upd (s_ses s) (s_next s) (mk_session id Starting [])) (s_reg s) (s_jobs s) (s_next_job s))
(** W 121-123 *)
| S_add s k : se_phase (s_ses s k) = Starting -> step s [] (set_ses (set_reg s (se_id (s_ses s k)) (Some k)) k (to_phase (s_ses s k) Pausing))
(** W 137 *)
| S_ask s k : se_phase (s_ses s k) = Pausing -> step s [] (set_ses s k (enqueue WSession (to_phase (s_ses s k) Asking)))
| S_lock s k q : se_phase (s_ses s k) = Asking -> se_queue (s_ses s k) = WSession :: q -> step s [] (set_ses s k (to_phase (s_ses s k) Reading))
(** W 139-147; the guard is dropped at the end of the loop's body *)
| S_call s k f c : se_phase (s_ses s k) = Reading -> process f = Call c -> step s [EFrame k f; ECall k c] (set_ses s k (to_phase (s_ses s k) (Working c None)))
| S_skip s k f : se_phase (s_ses s k) = Reading -> process f = Skip -> step s [EFrame k f] (set_ses s k (release (to_phase (s_ses s k) Pausing)))
| S_break s k f : se_phase (s_ses s k) = Reading -> process f = Break -> step s [EFrame k f; EEnd k] (set_ses (set_reg s (se_id (s_ses s k)) None) k (release (to_phase (s_ses s k) Over)))
| S_crash s k f : se_phase (s_ses s k) = Reading -> process f = Crash -> step s [EFrame k f; ECrash k] (set_ses s k (release (to_phase (s_ses s k) Crashed)))
(** W 148-152 *)
| S_gone s k : se_phase (s_ses s k) = Reading -> step s [EGone k; EEnd k] (set_ses (set_reg s (se_id (s_ses s k)) None) k (release (to_phase (s_ses s k) Over)))
(** W 223-293: the handler returns, unless it still waits for a message it sends *)
| S_return s k c w : se_phase (s_ses s k) = Working c w -> (forall j, w = Some j -> s_jobs s j = Sent \/ s_jobs s j = NotHere) -> step s [EReturn k] (set_ses s k (release (to_phase (s_ses s k) Pausing)))
| S_panic s k c : se_phase (s_ses s k) = Working c None -> step s [ECrash k] (set_ses s k (release (to_phase (s_ses s k) Crashed)))
(** The handler sends a message and waits for it; simplified: the last thing it does. *)
| S_handler_send s k c id msg : se_phase (s_ses s k) = Working c None ->
    step s [ESend (s_next_job s) id msg] (new_job (set_ses s k (to_phase (s_ses s k) (Working c (Some (s_next_job s))))) (Looking id msg))
(** Any other task does. *)
| S_send s id msg : step s [ESend (s_next_job s) id msg] (new_job s (Looking id msg))
(** R 353-359 *)
| S_found s j id msg k : s_jobs s j = Looking id msg -> s_reg s id = Some k -> step s [] (set_ses (set_job s j (Queued k msg)) k (enqueue (WSend j) (s_ses s k)))
| S_not_found s j id msg : s_jobs s j = Looking id msg -> s_reg s id = None -> step s [] (set_job s j NotHere)
(** R 359-361 *)
| S_deliver s j k msg q : s_jobs s j = Queued k msg -> se_queue (s_ses s k) = WSend j :: q -> step s [EDeliver j k msg] (set_ses (set_job s j Sent) k (release (s_ses s k))).
(** Executions, from a given state. (W 94-293, R 353-361). *)
Inductive run : state -> list event -> state -> Prop :=
| R_refl s : run s [] s
| R_step s tr s1 es s2 : run s tr s1 -> step s1 es s2 -> run s (tr ++ es) s2.
End Messages.
