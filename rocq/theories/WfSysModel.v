(** A whole workflow application: the HTTP API of libs/runtime/workflow/src/application.rs (below: W,
    modelled in WfAppModel.v) together with the state machines it starts (state_machine.rs, modelled
    in StateMachineModel.v), which share the execution service and the event channel of the
    application (types.rs 50-63); and what a stop of the process leaves. *)
From Verif Require Import Base Json WfTypes StateMachineModel ExecStoreModel WfAppModel.
Local Open Scope list_scope.

(** The requests of W 139-142, and a client reading from a stream of W 256-269.  As in WfAppModel.v,
    [uuid] is the id that [Uuid::new_v4] gives and [ok] whether the execution service saves. *)
Inductive request :=
| RRun (name : option string) (uuid : string) (input : json) (now : Z) (ok : bool)
| RExecution (id : string)
| RExecutions
| RStream (id : string)
| RRead (k : nat).
(** W 139-142 *)
Definition act_of (r : request) : act :=
  match r with
  | RRun name uuid input now ok => PostRun name uuid input now ok
  | RExecution id => GetExecution id
  | RExecutions => GetExecutions
  | RStream id => GetStream id
  | RRead k => Polls k
  end.
(** What a machine does that reaches the application: the saves that succeed, 701-716 and others of
    state_machine.rs, and the events it sends.  Handler calls, delays and waits do not. *)
Definition acts_of (m : nat) (fs : list effect) : list act :=
  flat_map (fun f => match f with
                     | FSave p true => [Saves m p]
                     | FEvent e => [Emits m e]
                     | _ => []
                     end) fs.

Section Sys.
Variable cap : nat.
Variable T : Type.
Variable render : T -> json -> json + render_error.
Variable extract : json -> string -> json + string.
Variable inject : json -> string -> json -> json + string.
Variable has_handler : string -> bool.
Variable wait_time : wait_config -> json -> Z -> N + (bool * option string * string).
(** types.rs 57: the workflow that every machine of the application runs *)
Variable spec : workflow_spec T.

(** The application; the machines that were started, oldest first; and how many of these were
    started by a process that has stopped. (W 44-63, 216-222) *)
Record sys := mk_sys { y_app : wapp; y_gone : nat; y_machines : list (config T) }.
(** W 66-87 *)
Definition sys_new : sys := mk_sys app_new 0 [].

(** A request; a machine going on by one step; or the process stopping, where [keeps] says whether
    the execution service (workflow_executions.rs 14-75) keeps what it holds: the one in memory
    (176-191) does not. *)
Inductive sact :=
| ARequest (r : request)
| AMachine (m : nat) (a : action)
| AStop (keeps : bool).

(** Not in the code: the answer that a stream of W 256-269 belongs to is cut off *)
Definition cut (s : stream) : stream := mk_stream (sm_next s) (sm_sent s) true.

(** W 175-269.  A new process has no machines of its own: nothing reads the executions that are
    stored and not over. *)
Definition ystep (s : sys) (x : sact) : option sys :=
  match x with
  | ARequest r =>
      let app := fst (step cap (y_app s) (act_of r)) in
      Some (mk_sys app (y_gone s)
        (* 216-222: one machine for each execution that was stored *)
        (match r with
         | RRun name uuid input now true =>
             y_machines s ++ [sm_init T spec (execution_of (match name with Some n => n | None => uuid end) (first_payload input now))]
         | _ => y_machines s
         end))
  | AMachine m a =>
      if Nat.ltb m (y_gone s) then None
      else match nth_error (y_machines s) m with
           | None => None
           | Some c =>
               match sm_step T render extract inject has_handler wait_time spec c a with
               | None => None
               | Some c' =>
                   Some (mk_sys (steps cap (y_app s) (acts_of m (map snd (skipn (length (c_log T c)) (c_log T c')))))
                           (y_gone s) (set_nth m c' (y_machines s)))
               end
           end
  | AStop keeps =>
      Some (mk_sys (mk_app (if keeps then ap_store (y_app s) else store_new) (ap_machines (y_app s)) (ap_events (y_app s)) (map cut (ap_streams (y_app s))))
              (length (y_machines s)) (y_machines s))
  end.
(** W 175-269, in order *)
Fixpoint yrun (s : sys) (xs : list sact) : option sys :=
  match xs with [] => Some s | x :: xs => match ystep s x with Some s' => yrun s' xs | None => None end end.
End Sys.
