(** Model of the workflow state machine,
    /repo/libs/runtime/workflow/src/state_machine.rs.

    The asynchronous functions are turned into threads that advance by atomic
    steps; a thread's position in the code is a [pc].  An execution is a list of
    actions, each naming the thread that advances and the answer it gets from
    its environment (clock, persistence, handler), so that quantifying over
    action lists quantifies over every schedule, every handler behaviour and
    every pattern of persistence failures.

    Simplifications, all deliberate:
    - durations and log lines are left out (they are only reported);
    - the read lock on the handler table held during a step (338-339) is left
      out, and the table is fixed during an execution;
    - the length of a retry delay is modelled in RetryDelayModel.v; here the
      argument it is computed from is recorded;
    - [attempt] is an unbounded integer instead of u32;
    - sending on the broadcast channel cannot fail (its result is ignored). *)
From Verif Require Import Base Json WfTypes.
Open Scope string_scope.

Section Machine.
  (** The payload template type and the template engine, modelled in
      PayloadModel.v; here any functions.  Errors carry their message. *)
  Variable T : Type.
  (** 1675-1729: the errors of the template engine, in two kinds *)
  Inductive render_error := RenderFunction (msg : string) | RenderParse (msg : string).
  Variable render : T -> json -> json + render_error.
  Variable extract : json -> string -> json + string.
  Variable inject : json -> string -> json -> json + string.
  (** Names with a registered handler. *)
  Variable has_handler : string -> bool.
  (** The wait time of a wait state (1498-1648) from its configuration, the input
      and the clock; modelled in WaitModel.v, here any function.  An error is
      (is it InvalidPayloadTemplate?, state name override, message). *)
  Variable wait_time : wait_config -> json -> Z -> N + (bool * option string * string).
  Variable spec : workflow_spec T.

  (** 1817-1825 *)
  Record err_info := {
    ei_state : string;
    ei_parent : option string;
    ei_name : option string;
    ei_msg : string
  }.
  (** 1748-1760 *)
  Inductive err_kind :=
  | PersistFailed | StateNotFound | InvalidState | ExecuteStepHandlerFailed
  | ParallelBranchesFailed | InvalidInputPath | InvalidResultPath | InvalidOutputPath
  | PayloadTemplateFailure | InvalidPayloadTemplate.
  (** 1731-1742, 1819-1825 *)
  Definition sm_error := (err_kind * err_info)%type.

  Definition mk_err (k : err_kind) (st : string) (parent : option string)
      (name : option string) (msg : string) : sm_error :=
    (k, {| ei_state := st; ei_parent := parent; ei_name := name; ei_msg := msg |}).

  (** 1380-1424 *)
  Definition find_parallel_child_state_config (pname : string) (p : state_config T) (name : string)
    : state_config T + sm_error :=
    match sc_type p with
    | Parallel =>
        match sc_parallel_branches p with
        | Some branches =>
            match flat_map (fun b => match lookup name (snd b) with Some c => [c] | None => [] end) branches with
            | c :: _ => inl c
            | [] => inr (mk_err StateNotFound name (Some pname) None
                "State could not be found in any of the parent state's parallel branches")
            end
        | None => inr (mk_err StateNotFound name (Some pname) None "Parallel state not found in parent state")
        end
    | _ => inr (mk_err InvalidState name (Some pname) None "Parent state is not a parallel state")
    end.

  (** 641-682 *)
  Definition derive_state_config (name : string) (parent : option string) : state_config T + sm_error :=
    match parent with
    | Some pname =>
        match lookup pname (ws_states spec) with
        | Some p => find_parallel_child_state_config pname p name
        | None => inr (mk_err StateNotFound name (Some pname) None "Parent state not found in workflow spec")
        end
    | None =>
        match lookup name (ws_states spec) with
        | Some c => inl c
        | None => inr (mk_err StateNotFound name None None "State not found in workflow spec")
        end
    end.

  (** 1308-1333 *)
  Definition prepare_state_input (name : string) (parent : option string) (cfg : state_config T)
      (input : json) : json + sm_error :=
    match sc_input_path cfg with
    | Some p => match extract input p with
                | inl v => inl v
                | inr e => inr (mk_err InvalidInputPath name parent (Some "InvalidInputPath")
                                  ("Failed to extract value from input JSON path: " ++ e))
                end
    | None => inl input
    end.

  (** 1335-1377 *)
  Definition prepare_state_output (name : string) (parent : option string) (cfg : state_config T)
      (input output : json) : json + sm_error :=
    match sc_result_path cfg with
    | Some p => match inject input p output with
                | inl v => inl v
                | inr e => inr (mk_err InvalidResultPath name parent (Some "InvalidResultPath")
                                  ("Failed to inject output from result path into input: " ++ e))
                end
    | None =>
        match sc_output_path cfg with
        | Some p => match extract output p with
                    | inl v => inl v
                    | inr e => inr (mk_err InvalidOutputPath name parent (Some "InvalidOutputPath")
                                      ("Failed to extract value from output JSON path: " ++ e))
                    end
        | None => inl output
        end
    end.

  (** 1274-1306 *)
  Definition prepare_input_from_catch (c : catch_config) (e : err_info) (input : json) : json + sm_error :=
    match ct_result_path c with
    | Some p =>
        match inject input p (JObj [("cause", JStr (ei_msg e));
                                    ("error", match ei_name e with Some n => JStr n | None => JNull end)]) with
        | inl v => inl v
        | inr m => inr (mk_err InvalidResultPath (ei_state e) (ei_parent e) (Some "InvalidResultPath")
                          ("Failed to inject error information from result path into input: " ++ m))
        end
    | None => inl input
    end.

  (** 1675-1729 *)
  Definition of_render_error (name : string) (parent : option string) (e : render_error) : sm_error :=
    match e with
    | RenderFunction m => mk_err PayloadTemplateFailure name parent None m
    | RenderParse m => mk_err InvalidPayloadTemplate name parent None m
    end.

  (** 1650-1656 *)
  Definition error_matches (error : string) (match_errors : list string) : bool :=
    if existsb (String.eqb "*") match_errors then true
    else existsb (String.eqb error) match_errors.

  (** 1658-1673 *)
  Definition derive_final_error_name (e : err_info) (fallback : string) : string :=
    match ei_name e with
    | Some n => if String.eqb n "" then fallback else n
    | None => fallback
    end.

  (** 1462-1477, 1480-1496 *)
  Definition find_parallel_child_state (s : exec_state) (name : string) : option exec_state :=
    match es_type s with
    | Parallel =>
        match flat_map (fun b => match List.find (fun c => String.eqb (es_name c) name) b with
                                 | Some c => [c] | None => [] end) (es_parallel s) with
        | c :: _ => Some c
        | [] => None
        end
    | _ => None
    end.

  (** 1444-1460 *)
  Fixpoint extract_state (name : string) (parent : option string) (states : list exec_state) : option exec_state :=
    match states with
    | [] => None
    | s :: r =>
        match parent with
        | None => if String.eqb (es_name s) name then Some s else extract_state name parent r
        | Some p => if String.eqb p (es_name s) then find_parallel_child_state s name
                    else extract_state name parent r
        end
    end.

  (** Mutating the state found by [extract_state_from_workflow_execution_mut],
      1426-1442: [None] when there is none.  The child of a parallel record is
      updated in place. *)
  Fixpoint update_first (name : string) (f : exec_state -> exec_state) (b : list exec_state)
    : option (list exec_state * exec_state) :=
    match b with
    | [] => None
    | c :: r => if String.eqb (es_name c) name then Some (f c :: r, f c)
                else match update_first name f r with
                     | Some (r', x) => Some (c :: r', x)
                     | None => None
                     end
    end.
  (** 1462-1478 *)
  Fixpoint update_branches (name : string) (f : exec_state -> exec_state) (bs : list (list exec_state))
    : option (list (list exec_state) * exec_state) :=
    match bs with
    | [] => None
    | b :: r => match update_first name f b with
                | Some (b', x) => Some (b' :: r, x)
                | None => match update_branches name f r with
                          | Some (r', x) => Some (b :: r', x)
                          | None => None
                          end
                end
    end.
  (** The write through the reference found in 1462-1478 *)
  Definition with_parallel (s : exec_state) (bs : list (list exec_state)) : exec_state :=
    mk_exec_state (es_name s) (es_type s) (es_parent s) (es_input s) (es_started s) (es_completed s)
      (es_status s) (es_attempt s) (es_error s) bs (es_raw_output s) (es_output s).
  (** 1462-1478 *)
  Definition update_child (s : exec_state) (name : string) (f : exec_state -> exec_state)
    : option (exec_state * exec_state) :=
    match es_type s with
    | Parallel => match update_branches name f (es_parallel s) with
                  | Some (bs, x) => Some (with_parallel s bs, x)
                  | None => None
                  end
    | _ => None
    end.
  Fixpoint update_state (name : string) (parent : option string) (f : exec_state -> exec_state)
      (states : list exec_state) : option (list exec_state * exec_state) :=
    match states with
    | [] => None
    | s :: r =>
        let rest := match update_state name parent f r with
                    | Some (r', x) => Some (s :: r', x)
                    | None => None
                    end in
        match parent with
        | None => if String.eqb (es_name s) name then Some (f s :: r, f s) else rest
        | Some p => if String.eqb p (es_name s)
                    then match update_child s name f with
                         | Some (s', x) => Some (s' :: r, x)
                         | None => None
                         end
                    else rest
        end
    end.

  (** The payload of every save: the current execution without id and output
      (e.g. 705-718). *)
  Definition payload_of (e : wf_execution) : save_payload :=
    {| sp_input := we_input e; sp_started := we_started e; sp_completed := we_completed e;
       sp_status := we_status e; sp_status_detail := we_status_detail e;
       sp_current_state := we_current_state e; sp_states := we_states e |}.

  (** 691-695: the in-memory update of a transition. *)
  Definition transition_update (e : wf_execution) (name : string) (st : exec_state) : wf_execution :=
    {| we_id := we_id e; we_input := we_input e; we_output := we_output e; we_started := we_started e;
       we_completed := we_completed e; we_status := InProgress;
       we_status_detail := "Executing state: " ++ name; we_current_state := Some name;
       we_states := (we_states e ++ [st])%list |}.

  Definition with_states (e : wf_execution) (sts : list exec_state) : wf_execution :=
    {| we_id := we_id e; we_input := we_input e; we_output := we_output e; we_started := we_started e;
       we_completed := we_completed e; we_status := we_status e;
       we_status_detail := we_status_detail e; we_current_state := we_current_state e;
       we_states := sts |}.

  (** 762-766 *)
  Definition complete_state (now : Z) (raw final : json) (s : exec_state) : exec_state :=
    mk_exec_state (es_name s) (es_type s) (es_parent s) (es_input s) (es_started s) (Some now)
      Succeeded (es_attempt s) (es_error s) (es_parallel s) (Some raw) (Some final).

  (** 799-808 *)
  Definition complete_execution (now : Z) (e : wf_execution) : wf_execution :=
    {| we_id := we_id e; we_input := we_input e; we_output := we_output e; we_started := we_started e;
       we_completed := Some now; we_status := Succeeded;
       we_status_detail := we_status_detail e; we_current_state := we_current_state e;
       we_states := we_states e |}.

  (** 1183-1185 *)
  Definition error_detail (name ename msg : string) : string :=
    "Error executing state """ ++ name ++ """ [" ++ ename ++ "]: " ++ msg.

  (** 1188-1196: only when the error is final. *)
  Definition fail_execution (detail : string) (e : wf_execution) : wf_execution :=
    {| we_id := we_id e; we_input := we_input e; we_output := we_output e; we_started := we_started e;
       we_completed := we_completed e; we_status := Failed;
       we_status_detail := detail; we_current_state := we_current_state e;
       we_states := we_states e |}.
  (** 1205-1209 *)
  Definition fail_state (now : Z) (detail : string) (s : exec_state) : exec_state :=
    mk_exec_state (es_name s) (es_type s) (es_parent s) (es_input s) (es_started s) (Some now)
      Failed (es_attempt s) (Some detail) (es_parallel s) (es_raw_output s) (es_output s).

  (** types.rs 86-133.  A StateRetry event exists but is never sent. *)
  Inductive wf_event :=
  | EvTransition (prev : option exec_state) (new : exec_state)
  | EvFailure (st : exec_state)
  | EvComplete (e : wf_execution).

  (** What an observer of the execution sees: saves and whether they succeeded,
      broadcast events, handler calls with their payload, retry delays (with the
      retry number the delay is computed from), waits. (Calls made in 54-1272.) *)
  Inductive effect :=
  | FSave (p : save_payload) (ok : bool)
  | FEvent (e : wf_event)
  | FCall (name : string) (payload : json)
  | FRetryDelay (name : string) (retry_attempt : Z)
  | FWait (seconds : N).

  (** What follows the recording of an error. 79-194, 967-1097. *)
  Inductive err_cont :=
  | KStop
  | KRetryOrCatch (e : err_info) (retry : option retry_config) (catch : option (list catch_config))
      (attempts : Z) (exceeded : bool) (input : json).

  (** Positions of a thread in the code. *)
  Inductive pc :=
  | PStart (name : string) (input : json) (prev : option exec_state) (parent : option string)
  | PTransition (st : exec_state) (cfg : state_config T) (input : json) (prev : option exec_state) (parent : option string)
  | PTransitionSave (st : exec_state) (cfg : state_config T) (input : json) (prev : option exec_state) (parent : option string)
  | PTransitionEvent (st : exec_state) (cfg : state_config T) (input : json) (prev : option exec_state) (parent : option string)
  | PBody (st : exec_state) (cfg : state_config T) (input : json) (parent : option string)
  | PHandler (st : exec_state) (cfg : state_config T) (input : json) (parent : option string)
  | PJoin (children : list nat) (st : exec_state) (cfg : state_config T) (input : json)
  | PSuccess (output : json) (st : exec_state) (cfg : state_config T) (input : json) (parent : option string)
  | PCompleted (output final : json) (st : exec_state) (cfg : state_config T) (input : json) (parent : option string)
  | PCompletedSave (final : json) (st : exec_state) (cfg : state_config T) (input : json) (parent : option string)
  | PFinish (final input : json)
  | PFinishSave (final input : json)
  | PFinishEvent (final : json)
  | PError (e : sm_error) (input : json)
  | PCheckAttempts (ename : string) (e : err_info) (retry : option retry_config)
      (catch : option (list catch_config)) (input : json)
  | PRecord (name : string) (parent : option string) (ename msg : string)
      (persist can_continue : bool) (k : err_cont)
  | PRecordSave (exec : wf_execution) (st : exec_state) (can_continue : bool) (k : err_cont)
  | PRecordEvent (exec : wf_execution) (st : exec_state) (can_continue : bool) (k : err_cont)
  | PRecordComplete (exec : wf_execution) (k : err_cont)
  | PRetry (e : err_info) (input : json)
  | PCatch (catch : option (list catch_config)) (e : err_info) (input : json)
  | PDone (r : option json)
  | PPanicked.

  (** [th_ret]: the value the thread will return once the states it is now
      executing are over: the first state's output if that state succeeded, or
      nothing if it failed (172-192, 437-453): later states do not change it. *)
  Record thread := { th_pc : pc; th_ret : option (option json) }.

  (** 36-43, with the tasks that run on it and what they have done *)
  Record config := {
    c_exec : wf_execution;
    c_lock : option nat;          (* holder of the workflow_execution mutex *)
    c_threads : list thread;
    c_log : list (nat * effect)   (* oldest first *)
  }.

  (** 46-76 *)
  Definition sm_init (initial : wf_execution) : config :=
    {| c_exec := initial; c_lock := None;
       c_threads := [ {| th_pc := PStart (ws_start_at spec) (we_input initial) None None; th_ret := None |} ];
       c_log := [] |}.

  (** Answers of the environment: none needed, a save's result, a handler's result. (The awaits of 54-1272.) *)
  Inductive answer :=
  | ANothing
  | ASaved (err : option string)
  | AHandler (r : json + (string * string)).
  (** Which task of 54-1272 goes on, when, and with what answer *)
  Record action := { a_thread : nat; a_now : Z; a_answer : answer }.

  (** Not in the code: the thread of a task that went on (54-1272) is replaced *)
  Fixpoint set_nth {A} (n : nat) (x : A) (l : list A) : list A :=
    match l, n with
    | [], _ => []
    | _ :: r, O => x :: r
    | y :: r, S k => y :: set_nth k x r
    end.

  (** What one step does: new position, returned value fixed by it, new execution
      and lock, effects, new threads. (One step of 54-1272.) *)
  Record outcome_of_step := {
    o_pc : pc;
    o_ret : option (option json);
    o_exec : wf_execution;
    o_lock : option nat;
    o_effects : list effect;
    o_spawn : list thread
  }.

  (** A step of 54-1272 that changes nothing but the position *)
  Definition stay (c : config) (p : pc) : outcome_of_step :=
    {| o_pc := p; o_ret := None; o_exec := c_exec c; o_lock := c_lock c; o_effects := []; o_spawn := [] |}.
  (** The same step, with calls that others see *)
  Definition with_effects (o : outcome_of_step) (fs : list effect) : outcome_of_step :=
    {| o_pc := o_pc o; o_ret := o_ret o; o_exec := o_exec o; o_lock := o_lock o; o_effects := fs; o_spawn := o_spawn o |}.
  (** The same step, with a write to the execution (43) *)
  Definition with_exec (o : outcome_of_step) (e : wf_execution) : outcome_of_step :=
    {| o_pc := o_pc o; o_ret := o_ret o; o_exec := e; o_lock := o_lock o; o_effects := o_effects o; o_spawn := o_spawn o |}.
  (** The same step, with the lock of the execution (41) taken or given back *)
  Definition with_lock (o : outcome_of_step) (l : option nat) : outcome_of_step :=
    {| o_pc := o_pc o; o_ret := o_ret o; o_exec := o_exec o; o_lock := l; o_effects := o_effects o; o_spawn := o_spawn o |}.
  Definition with_ret (o : outcome_of_step) (r : option json) : outcome_of_step :=
    {| o_pc := o_pc o; o_ret := Some r; o_exec := o_exec o; o_lock := o_lock o; o_effects := o_effects o; o_spawn := o_spawn o |}.

  (** Results of the joined branches in branch order, [None] while one is still
      running: [Some v] a value, [None] a failure (552-575). *)
  Fixpoint join_results (c : config) (children : list nat) : option (list (option json)) :=
    match children with
    | [] => Some []
    | k :: r =>
        match nth_error (c_threads c) k with
        | Some {| th_pc := PDone v |} =>
            match join_results c r with Some vs => Some (v :: vs) | None => None end
        | Some {| th_pc := PPanicked |} =>
            match join_results c r with Some vs => Some (None :: vs) | None => None end
        | _ => None
        end
    end.

  (** Threads of the branches, 487-531: a branch whose start state is missing is
      a task that fails at once. *)
  Definition spawn_branches (name : string) (input : json)
      (branches : list (string * list (string * state_config T))) : list thread :=
    map (fun b => match lookup (fst b) (snd b) with
                  | Some _ => {| th_pc := PStart (fst b) input None (Some name); th_ret := None |}
                  | None => {| th_pc := PDone None; th_ret := Some None |}
                  end) branches.

  (** After an error was recorded: 942-955 and 967-1014 up to the retry's sleep. *)
  Definition continue_after (c : config) (k : err_cont) : outcome_of_step :=
    match k with
    | KStop => stay c (PDone None)
    | KRetryOrCatch e retry catch attempts exceeded input =>
        match retry with
        | Some _ =>
            if exceeded then stay c (PCatch catch e input)
            else with_effects (stay c (PRetry e input)) [FRetryDelay (ei_state e) (attempts - 1)]
        | None => stay c (PCatch catch e input)
        end
    end.

  (** One atomic step of thread [t] at position [p]; [None]: not enabled (waiting
      for the lock, for the branches, or finished), or the answer has the wrong
      kind. *)
  Definition step_pc (c : config) (t : nat) (p : pc) (now : Z) (a : answer) : option outcome_of_step :=
    let unlocked := match c_lock c with None => true | Some _ => false end in
    match p, a with
    (* execute_state 196-262: configuration, attempt number, input *)
    | PStart name input prev parent, ANothing =>
        Some (match derive_state_config name parent with
              | inr e => stay c (PError e input)
              | inl cfg =>
                  let attempt := match prev with
                                 | Some s => if String.eqb (es_name s) name then (es_attempt s + 1)%Z else 1%Z
                                 | None => 1%Z
                                 end in
                  match prepare_state_input name parent cfg input with
                  | inr e => stay c (PError e input)
                  | inl final =>
                      stay c (PTransition
                        (mk_exec_state name (sc_type cfg) None final now None InProgress attempt None [] None None)
                        cfg input prev parent)
                  end
              end)
    (* record_transition 684-744: lock, update ... *)
    | PTransition st cfg input prev parent, ANothing =>
        if unlocked then
          Some (with_lock (with_exec (stay c (PTransitionSave st cfg input prev parent))
                  (transition_update (c_exec c) (es_name st) st)) (Some t))
        else None
    (* ... persist (lock held) ... *)
    | PTransitionSave st cfg input prev parent, ASaved err =>
        Some (match err with
              | None => with_effects (stay c (PTransitionEvent st cfg input prev parent))
                          [FSave (payload_of (c_exec c)) true]
              | Some m => with_effects (with_lock (stay c (PError
                            (mk_err PersistFailed (es_name st) parent None
                               ("Failed to persist state transition: " ++ m)) input)) None)
                            [FSave (payload_of (c_exec c)) false]
              end)
    (* ... broadcast and unlock *)
    | PTransitionEvent st cfg input prev parent, ANothing =>
        Some (with_effects (with_lock (stay c (PBody st cfg input parent)) None)
                [FEvent (EvTransition prev st)])
    (* execute_state 264-322: dispatch; execute_step 325-374; execute_parallel
       456-531; wait 545-585 *)
    | PBody st cfg input parent, ANothing =>
        let invalid msg := stay c (PError (mk_err InvalidState (es_name st) parent None msg) input) in
        Some (match sc_type cfg with
              | ExecuteStep =>
                  if has_handler (es_name st) then
                    match sc_payload_template cfg with
                    | Some tpl =>
                        match render tpl input with
                        | inl v => with_effects (stay c (PHandler st cfg input parent)) [FCall (es_name st) v]
                        | inr e => stay c (PError (of_render_error (es_name st) parent e) input)
                        end
                    | None => with_effects (stay c (PHandler st cfg input parent)) [FCall (es_name st) input]
                    end
                  else invalid "No handler found for state"
              | Parallel =>
                  match sc_parallel_branches cfg with
                  | None => invalid "Parallel state is missing parallel_branches field"
                  | Some [] => invalid "Parallel state has no parallel branches"
                  | Some branches =>
                      let n := length (c_threads c) in
                      {| o_pc := PJoin (seq n (length branches)) st cfg input; o_ret := None;
                         o_exec := c_exec c; o_lock := c_lock c; o_effects := [];
                         o_spawn := spawn_branches (es_name st) input branches |}
                  end
              | Wait =>
                  match sc_wait_config cfg with
                  | None => invalid "Wait state is missing wait_config field"
                  | Some w =>
                      match wait_time w input now with
                      | inl secs => with_effects (stay c (PSuccess input st cfg input parent)) [FWait secs]
                      | inr (tpl, override, msg) =>
                          stay c (PError (mk_err (if tpl then InvalidPayloadTemplate else InvalidState)
                            (match override with Some n => n | None => es_name st end) None None msg) input)
                      end
                  end
              | Decision | Pass | Success | Failure => with_ret (stay c (PDone (Some (JObj [])))) (Some (JObj []))
              | Unknown => invalid "Unsupported state type: Unknown"
              end)
    (* execute_step 376-400: the handler's result *)
    | PHandler st cfg input parent, AHandler r =>
        Some (match r with
              | inl output => stay c (PSuccess output st cfg input parent)
              | inr (ename, msg) =>
                  stay c (PError (mk_err ExecuteStepHandlerFailed (es_name st) parent (Some ename)
                                    ("Execute step failed: " ++ msg)) input)
              end)
    (* execute_parallel 533-542 and handle_parallel_results 587-639 *)
    | PJoin children st cfg input, ANothing =>
        match join_results c children with
        | None => None
        | Some rs =>
            Some (if existsb (fun r => match r with None => true | Some _ => false end) rs then
                    stay c (PError (mk_err ParallelBranchesFailed (es_name st) None (Some "BranchesFailed")
                                      "branches failed") input)
                  else stay c (PSuccess (JArr (flat_map (fun r => match r with Some v => [v] | None => [] end) rs))
                                 st cfg input None))
        end
    (* handle_state_success 403-424 *)
    | PSuccess output st cfg input parent, ANothing =>
        Some (match prepare_state_output (es_name st) parent cfg input output with
              | inl final => stay c (PCompleted output final st cfg input parent)
              | inr e => stay c (PError e input)
              end)
    (* record_completed_state 746-796: lock and update (or crash) ... *)
    | PCompleted output final st cfg input parent, ANothing =>
        if unlocked then
          Some (match update_state (es_name st) parent (complete_state now output final) (we_states (c_exec c)) with
                | Some (sts, _) =>
                    with_lock (with_exec (stay c (PCompletedSave final st cfg input parent))
                      (with_states (c_exec c) sts)) (Some t)
                | None => stay c PPanicked
                end)
        else None
    (* ... persist and unlock; handle_state_success 434-453: what comes next *)
    | PCompletedSave final st cfg input parent, ASaved err =>
        Some (match err with
              | Some m =>
                  with_effects (with_lock (stay c (PError (mk_err PersistFailed (es_name st) parent None
                     ("Failed to persist state transition: " ++ m)) input)) None)
                     [FSave (payload_of (c_exec c)) false]
              | None =>
                  with_effects (with_lock
                    (match sc_next cfg with
                     | Some next => with_ret (stay c (PStart next final (Some st) parent)) (Some final)
                     | None =>
                         if match sc_end cfg with Some b => b | None => false end
                         then stay c (PFinish final input)
                         else stay c (PError (mk_err InvalidState (es_name st) parent None
                                "State is missing next or end field") input)
                     end) None) [FSave (payload_of (c_exec c)) true]
              end)
    (* record_completed_workflow_execution 798-853 *)
    | PFinish final input, ANothing =>
        if unlocked then
          Some (with_lock (with_exec (stay c (PFinishSave final input))
                  (complete_execution now (c_exec c))) (Some t))
        else None
    | PFinishSave final input, ASaved err =>
        Some (match err with
              | None => with_effects (stay c (PFinishEvent final)) [FSave (payload_of (c_exec c)) true]
              | Some m => with_effects (with_lock (stay c (PError
                            (mk_err PersistFailed "unknown" None None
                               ("Failed to persist workflow execution completion: " ++ m)) input)) None)
                            [FSave (payload_of (c_exec c)) false]
              end)
    | PFinishEvent final, ANothing =>
        Some (with_ret (with_effects (with_lock (stay c (PDone (Some final))) None)
                [FEvent (EvComplete (c_exec c))]) (Some final))
    (* execute_state_and_handle_error 91-193; handle_catchable_error 855-886;
       handle_retryable_error 888-926 *)
    | PError (kind, e) input, ANothing =>
        let record ename persist :=
          stay c (PRecord (ei_state e) (ei_parent e) ename (ei_msg e) persist false KStop) in
        let catch := match derive_state_config (ei_state e) (ei_parent e) with
                     | inl cfg => sc_catch cfg | inr _ => None end in
        let catchable := stay c (PCatch catch e input) in
        let retryable fallback :=
          let ename := derive_final_error_name e fallback in
          let retry := match derive_state_config (ei_state e) (ei_parent e) with
                       | inl cfg => match sc_retry cfg with
                                    | Some rs => List.find (fun r => error_matches ename (rt_match_errors r)) rs
                                    | None => None
                                    end
                       | inr _ => None end in
          stay c (PCheckAttempts ename e retry catch input) in
        Some (with_ret
          (match kind with
           | PersistFailed => record "PersistFailed" false
           | StateNotFound => record "StateNotFound" true
           | InvalidState => record "InvalidState" true
           | InvalidPayloadTemplate | PayloadTemplateFailure | InvalidInputPath => catchable
           | InvalidResultPath => retryable "InvalidResultPath"
           | InvalidOutputPath => retryable "InvalidOutputPath"
           | ExecuteStepHandlerFailed => retryable "HandlerFailed"
           | ParallelBranchesFailed => retryable "ParallelBranchesFailed"
           end) None)
    (* check_exceeded_max_attempts 1109-1138, then 929-941 *)
    | PCheckAttempts ename e retry catch input, ANothing =>
        if unlocked then
          let '(attempts, exceeded) :=
            match extract_state (ei_state e) (ei_parent e) (we_states (c_exec c)), retry with
            | Some s, Some r =>
                match rt_max_attempts r with
                | Some m => if (m <=? es_attempt s - 1)%Z then (es_attempt s, true) else (0%Z, false)
                | None => (0%Z, false)
                end
            | _, _ => (0%Z, false)
            end in
          Some (stay c (PRecord (ei_state e) (ei_parent e) ename (ei_msg e) true
                  (match retry with Some _ => negb exceeded | None => false end)
                  (KRetryOrCatch e retry catch attempts exceeded input)))
        else None
    (* record_error 1169-1215: lock, update (or crash), unlock ... *)
    | PRecord name parent ename msg persist can_continue k, ANothing =>
        if unlocked then
          let detail := error_detail name ename msg in
          let exec := if can_continue then c_exec c else fail_execution detail (c_exec c) in
          Some (match update_state name parent (fail_state now detail) (we_states exec) with
                | Some (sts, s) =>
                    let exec' := with_states exec sts in
                    with_exec (stay c (if persist then PRecordSave exec' s can_continue k
                                       else PRecordEvent exec' s can_continue k)) exec'
                | None => with_exec (stay c PPanicked) exec
                end)
        else None
    (* ... persist the captured execution (not holding the lock), 1217-1246 ... *)
    | PRecordSave exec s can_continue k, ASaved err =>
        Some (with_effects (stay c (PRecordEvent exec s can_continue k))
                [FSave (payload_of exec) (match err with None => true | Some _ => false end)])
    (* ... broadcast the failure and, when final, the completion, 1257-1271 *)
    | PRecordEvent exec s can_continue k, ANothing =>
        Some (if can_continue
              then let o := continue_after c k in
                   with_effects o (FEvent (EvFailure s) :: o_effects o)
              else with_effects (stay c (PRecordComplete exec k)) [FEvent (EvFailure s)])
    | PRecordComplete exec k, ANothing =>
        Some (let o := continue_after c k in
              with_effects o (FEvent (EvComplete exec) :: o_effects o))
    (* retry_or_catch 990-1007, after the delay *)
    | PRetry e input, ANothing =>
        if unlocked then
          Some (stay c (PStart (ei_state e) input
                  (extract_state (ei_state e) (ei_parent e) (we_states (c_exec c))) (ei_parent e)))
        else None
    (* catch 1016-1052 and handle_retry_or_catch_error 1058-1077 *)
    | PCatch catch e input, ANothing =>
        let ename := match ei_name e with Some n => n | None => "" end in
        match catch with
        | None => Some (stay c (PDone None))
        | Some rules =>
            match List.find (fun r => error_matches ename (ct_match_errors r)) rules with
            | None => Some (stay c (PDone None))
            | Some rule =>
                if unlocked then
                  Some (match prepare_input_from_catch rule e input with
                        | inl input' =>
                            stay c (PStart (ct_next rule) input'
                              (extract_state (ct_next rule) (ei_parent e) (we_states (c_exec c))) (ei_parent e))
                        | inr (_, e') =>
                            stay c (PRecord (ei_state e') (ei_parent e') "InvalidResultPath" (ei_msg e') true false KStop)
                        end)
                else None
            end
        end
    | _, _ => None
    end.

  (** A thread that ends returns the value fixed earlier, if any. 172-192, 437-453. *)
  Definition final_pc (ret : option (option json)) (p : pc) : pc :=
    match p, ret with
    | PDone _, Some r => PDone r
    | _, _ => p
    end.

  (** 54-1272: one step of one task, at its position *)
  Definition sm_step (c : config) (a : action) : option config :=
    match nth_error (c_threads c) (a_thread a) with
    | None => None
    | Some th =>
        match step_pc c (a_thread a) (th_pc th) (a_now a) (a_answer a) with
        | None => None
        | Some o =>
            let ret := match th_ret th with Some r => Some r | None => o_ret o end in
            Some {| c_exec := o_exec o; c_lock := o_lock o;
                    c_threads := (set_nth (a_thread a) {| th_pc := final_pc ret (o_pc o); th_ret := ret |}
                                    (c_threads c) ++ o_spawn o)%list;
                    c_log := (c_log c ++ map (pair (a_thread a)) (o_effects o))%list |}
        end
    end.

  (** 54-1272: steps in order *)
  Fixpoint sm_run (c : config) (acts : list action) : option config :=
    match acts with
    | [] => Some c
    | a :: r => match sm_step c a with Some c' => sm_run c' r | None => None end
    end.
End Machine.
