(** The HTTP API of a workflow application, libs/runtime/workflow/src/application.rs (below: W), and
    its setup, transform_config.rs (T). *)
From Verif Require Import Base Json WfTypes ExecStoreModel.
From Verif Require StateMachineModel ApiModel.
Local Open Scope list_scope.

(** types.rs 88-94 *)
Definition event := StateMachineModel.wf_event.
(** W 256-269: a stream is a receiver of the broadcast channel all executions share (W 84).
    [sm_next] counts the events that were sent before the next one it takes, [sm_sent] is what the
    client was sent, [sm_broken] whether the answer broke off. *)
Record stream := mk_stream { sm_next : nat; sm_sent : list event; sm_broken : bool }.
(** [ap_machines] are the state machines that were started, each with the execution it was given;
    [ap_events] the events that were broadcast, each with its machine. W 44-63, 175-269. *)
Record wapp := mk_app { ap_store : store; ap_machines : list wf_execution; ap_events : list (nat * event); ap_streams : list stream }.
(** W 66-87 *)
Definition app_new : wapp := mk_app store_new [] [] [].

(** What comes to the application: the requests of W 139-142; a machine saving its execution,
    state_machine.rs 701-716 and others; a machine broadcasting; a client's stream being polled.
    [uuid] is the id that [Uuid::new_v4] gives, [ok] whether the execution service saves.
    Simplified: the save of one request is one step; a save that fails saves nothing. *)
Inductive act :=
| PostRun (name : option string) (uuid : string) (input : json) (now : Z) (ok : bool)
| GetExecution (id : string)
| GetExecutions
| GetStream (id : string)
| Saves (machine : nat) (p : save_payload)
| Emits (machine : nat) (e : event)
| Polls (k : nat).
(** Answers: status 200 with the id; status 500; status 200 with [null]; an open stream *)
Inductive answer := Started (id : string) | Unexpected | Null | Streaming (k : nat).

(** W 192-201 *)
Definition first_payload (input : json) (now : Z) : save_payload :=
  {| sp_input := input; sp_started := now; sp_completed := None; sp_status := Preparing;
     sp_status_detail := "The execution is currently being prepared"; sp_current_state := None; sp_states := [] |}.
(** [BroadcastStream] on tokio's broadcast channel (third party), which keeps the last [cap] events:
    a receiver that is further behind gets an error, and an error ends the answer (axum's [Sse]). (W 256-269) *)
Definition poll (cap : nat) (events : list (nat * event)) (s : stream) : stream :=
  if sm_broken s then s
  else if Nat.ltb (sm_next s + cap) (length events) then mk_stream (sm_next s) (sm_sent s) true
  else match nth_error events (sm_next s) with
       | Some (_, e) => mk_stream (S (sm_next s)) (sm_sent s ++ [e]) false
       | None => s
       end.
(** Not in the code: one stream of W 256-269 is read *)
Fixpoint update {A} (k : nat) (f : A -> A) (l : list A) : list A :=
  match l, k with [], _ => [] | x :: l, O => f x :: l | x :: l, S k => x :: update k f l end.

Section Cap.
Variable cap : nat.
Definition step (a : wapp) (x : act) : wapp * option answer :=
  match x with
  | PostRun name uuid input now ok =>
      (** W 175-243 *)
      let id := match name with Some n => n | None => uuid end in
      let p := first_payload input now in
      if ok then (mk_app (save (ap_store a) id p) (ap_machines a ++ [execution_of id p]) (ap_events a) (ap_streams a), Some (Started id))
      else (a, Some Unexpected)
  | GetExecution _ => (a, Some Null) (** W 245-250 *)
  | GetExecutions => (a, Some Null) (** W 252-254 *)
  | GetStream _ =>
      (** W 256-269: the id is not looked at *)
      (mk_app (ap_store a) (ap_machines a) (ap_events a) (ap_streams a ++ [mk_stream (length (ap_events a)) [] false]), Some (Streaming (length (ap_streams a))))
  | Saves m p =>
      match nth_error (ap_machines a) m with
      | Some e => (mk_app (save (ap_store a) (we_id e) p) (ap_machines a) (ap_events a) (ap_streams a), None)
      | None => (a, None)
      end
  | Emits m e => (mk_app (ap_store a) (ap_machines a) (ap_events a ++ [(m, e)]) (ap_streams a), None)
  | Polls k => (mk_app (ap_store a) (ap_machines a) (ap_events a) (update k (poll cap (ap_events a)) (ap_streams a)), None)
  end.
(** W 175-269, in order *)
Fixpoint steps (a : wapp) (xs : list act) : wapp :=
  match xs with [] => a | x :: xs => steps (fst (step a x)) xs end.
End Cap.

(** T 9-32.  A resource is its type, its spec if that is a workflow, and the rest; [W] are workflow
    specs, of which [empty] has no start and no states. *)
Inductive wf_rtype := RWorkflow | ROther.
(** T 13-17: what it looks at *)
Record wf_resource := mk_wf_resource { wr_type : wf_rtype; wr_spec : workflow_spec unit }.
(** config.rs 56-59, T 25-31 *)
Record wf_config := mk_wf_config { wc_handlers : option (list string); wc_workflow : workflow_spec unit }.
(** T 27-30 *)
Definition empty_workflow : workflow_spec unit := {| ws_start_at := ""; ws_states := [] |}.
(** T 9-32 *)
Definition collect (rs : list (string * wf_resource)) : option wf_config :=
  match find (fun r => match wr_type (snd r) with RWorkflow => true | ROther => false end) rs with
  | Some _ => Some (mk_wf_config None empty_workflow)
  | None => None
  end.
