(** Vocabulary for the properties of workflow executions (C13-C16, C18-C20).
    Nothing here follows the structure of the state machine: it speaks about the
    workflow definition, the answers of the environment and the log of observable
    effects (saves, events, handler calls). *)
From Verif Require Import Base Json WfTypes StateMachineModel.
Open Scope string_scope.

(** The effects of one thread of control, oldest first. *)
Definition effects_of (t : nat) (log : list (nat * effect)) : list effect :=
  map snd (filter (fun x => Nat.eqb (fst x) t) log).

Definition effects (log : list (nat * effect)) : list effect := map snd log.

(** Handler calls (state name and payload), oldest first. *)
Definition calls (fs : list effect) : list (string * json) :=
  flat_map (fun f => match f with FCall n p => [(n, p)] | _ => [] end) fs.
(** States announced as started, oldest first. *)
Definition started (fs : list effect) : list string :=
  flat_map (fun f => match f with FEvent (EvTransition _ st) => [es_name st] | _ => [] end) fs.
(** Completion events, oldest first. *)
Definition completions (fs : list effect) : list wf_execution :=
  flat_map (fun f => match f with FEvent (EvComplete e) => [e] | _ => [] end) fs.
(** Failed states announced, oldest first. *)
Definition failures (fs : list effect) : list exec_state :=
  flat_map (fun f => match f with FEvent (EvFailure s) => [s] | _ => [] end) fs.
(** What has been stored: the last successful save. *)
Definition stored (fs : list effect) (p : save_payload) : Prop :=
  last_assigned (fun f => match f with FSave p true => Some p | _ => None end) fs p.

Section Spec.
  Context {T : Type}.
  Variable render : T -> json -> json + render_error.
  Variable extract : json -> string -> json + string.
  Variable inject : json -> string -> json -> json + string.
  Variable has_handler : string -> bool.
  Variable wait_time : wait_config -> json -> Z -> N + (bool * option string * string).
  Variable spec : workflow_spec T.

  (** All configurations an execution of [initial] can be in, whatever the
      schedule and the answers. *)
  Definition reachable (initial : wf_execution) (c : config T) : Prop :=
    exists acts, sm_run T render extract inject has_handler wait_time spec (sm_init T spec initial) acts = Some c.

  (** [drive c t acts fs c']: the actions [acts], all of thread [t], take the
      execution from [c] to [c'] and have the effects [fs]. *)
  Definition drive (c : config T) (t : nat) (acts : list action) (fs : list effect) (c' : config T) : Prop :=
    sm_run T render extract inject has_handler wait_time spec c acts = Some c'
    /\ Forall (fun a => a_thread a = t) acts /\ c_log T c' = (c_log T c ++ map (pair t) fs)%list.

  (** The document a path selects, if the path is given. *)
  Definition through (path : option string) (v w : json) : Prop :=
    match path with None => w = v | Some p => extract v p = inl w end.
  (** The payload of a step: its template applied to the input, or the input. *)
  Definition payload_is (tpl : option T) (v w : json) : Prop :=
    match tpl with None => w = v | Some t => render t v = inl w end.
  (** What a state passes on: its result placed into its input, or selected from
      its output, or its output. *)
  Definition passes_on (cfg : state_config T) (input output final : json) : Prop :=
    match sc_result_path cfg with
    | Some p => inject input p output = inl final
    | None => through (sc_output_path cfg) output final
    end.

  (** A sequence of steps.  [chain name input outs cs final]: the state [name] is a
      step whose handler is registered; called with payload the first of [cs] it
      answers the first component of the first of [outs] and the state passes on
      the second; and so on along [next] up to a state marked [end], which passes
      on [final]. *)
  Inductive chain : string -> json -> list (json * json) -> list (string * json) -> json -> Prop :=
  | chain_end name input cfg i p o final :
      lookup name (ws_states spec) = Some cfg -> sc_type cfg = ExecuteStep -> has_handler name = true ->
      through (sc_input_path cfg) input i -> payload_is (sc_payload_template cfg) input p ->
      passes_on cfg input o final -> sc_next cfg = None -> sc_end cfg = Some true ->
      chain name input [(o, final)] [(name, p)] final
  | chain_next name input cfg i p o v next outs cs final :
      lookup name (ws_states spec) = Some cfg -> sc_type cfg = ExecuteStep -> has_handler name = true ->
      through (sc_input_path cfg) input i -> payload_is (sc_payload_template cfg) input p ->
      passes_on cfg input o v -> sc_next cfg = Some next ->
      chain next v outs cs final ->
      chain name input ((o, v) :: outs) ((name, p) :: cs) final.
End Spec.

(** A finished record: the call's name, succeeded, the handler's answer and the
    value passed on kept. *)
Definition finished (s : exec_state) (x : (string * json) * (json * json)) : Prop :=
  es_name s = fst (fst x) /\ es_status s = Succeeded
  /\ es_raw_output s = Some (fst (snd x)) /\ es_output s = Some (snd (snd x)).
(** The successful answers of a list of answers and passed on values. *)
Definition answered (outs : list (json * json)) : list (json + string * string) :=
  map (fun o => inl (fst o)) outs.

(** The handlers' answers in a schedule, oldest first. *)
Definition handler_answers (acts : list action) : list (json + string * string) :=
  flat_map (fun a => match a_answer a with AHandler r => [r] | _ => [] end) acts.
(** Every save succeeds. *)
Definition saves_succeed (acts : list action) : Prop :=
  Forall (fun a => forall m, a_answer a <> ASaved (Some m)) acts.
Definition is_prefix {A} (l l' : list A) : Prop := exists r, l' = (l ++ r)%list.

(** Rules of a state: a rule names errors or holds the wildcard; the first rule
    that matches is the one that applies. *)
Definition names_error (err : string) (match_errors : list string) : Prop :=
  In "*" match_errors \/ In err match_errors.
Definition first_match {R} (P : R -> Prop) (l : list R) (r : R) : Prop :=
  exists pre post, l = (pre ++ r :: post)%list /\ P r /\ forall x, In x pre -> ~ P x.
Definition no_match {R} (P : R -> Prop) (l : option (list R)) : Prop :=
  forall rs r, l = Some rs -> In r rs -> ~ P r.

(** Thread [t] waits for the answer of the handler of the top-level state [name],
    which was started with [input]. *)
Definition awaiting {T} (c : config T) (t : nat) (name : string) (input : json) : Prop :=
  exists st cfg r, nth_error (c_threads T c) t = Some {| th_pc := PHandler T st cfg input None; th_ret := r |}
    /\ es_name st = name.
(** Thread [t] has ended, without and with a crash. *)
Definition ended_thread {T} (c : config T) (t : nat) : Prop :=
  exists v r, nth_error (c_threads T c) t = Some {| th_pc := PDone T v; th_ret := r |}.
Definition crashed_thread {T} (c : config T) (t : nat) : Prop :=
  exists r, nth_error (c_threads T c) t = Some {| th_pc := PPanicked T; th_ret := r |}.

(** The input of the state an error is routed to: the state's input, or that
    input with the error's description placed at the rule's result path. *)
Definition caught_input (inject : json -> string -> json -> json + string) (rule : catch_config)
    (err msg : string) (input input' : json) : Prop :=
  match ct_result_path rule with
  | None => input' = input
  | Some p => inject input p (JObj [("cause", JStr msg); ("error", JStr err)]) = inl input'
  end.

(** The saved document shows [st] as its last and current state, in progress. *)
Definition saved_with (p : save_payload) (st : exec_state) : Prop :=
  (exists l, sp_states p = (l ++ [st])%list) /\ sp_status p = InProgress
  /\ sp_current_state p = Some (es_name st).

(** A retry rule without a limit, or with a limit of at least one attempt. *)
Definition limit_allows (r : retry_config) : Prop :=
  match rt_max_attempts r with None => True | Some m => (1 <= m)%Z end.

(** No retry: no rule matches, or the first that does allows no attempt. *)
Definition not_retried (err : string) (rules : option (list retry_config)) : Prop :=
  no_match (fun r => names_error err (rt_match_errors r)) rules
  \/ exists rs r, rules = Some rs /\ first_match (fun r => names_error err (rt_match_errors r)) rs r /\ ~ limit_allows r.

(** The error name shown for a failed handler and the text kept with it. *)
Definition shown_error (err : string) : string := if String.eqb err "" then "HandlerFailed" else err.
Definition detail_of (name err msg : string) : string :=
  "Error executing state """ ++ name ++ """ [" ++ err ++ "]: Execute step failed: " ++ msg.
(** The text kept with any other failure. *)
Definition failure_text (name err msg : string) : string :=
  "Error executing state """ ++ name ++ """ [" ++ err ++ "]: " ++ msg.

(** The states of a workflow definition: [declared spec None name cfg] at the top
    level, [declared spec (Some p) name cfg] in a branch of the parallel state [p]. *)
Inductive declared {T} (spec : workflow_spec T) : option string -> string -> state_config T -> Prop :=
| declared_top name cfg : lookup name (ws_states spec) = Some cfg -> declared spec None name cfg
| declared_branch pname p bs b name cfg :
    lookup pname (ws_states spec) = Some p -> sc_type p = Parallel ->
    sc_parallel_branches p = Some bs -> In b bs -> lookup name (snd b) = Some cfg ->
    declared spec (Some pname) name cfg.

(** Workflows whose failures are all of a kind that is recorded: no input paths
    and templates, and only steps, parallel states and waits whose time does not
    come from a malformed path. *)
Definition always_reports {T} (wait_time : wait_config -> json -> Z -> N + (bool * option string * string))
    (spec : workflow_spec T) : Prop :=
  forall parent n cfg, declared spec parent n cfg ->
    sc_input_path cfg = None /\ sc_payload_template cfg = None /\
    (sc_type cfg = ExecuteStep \/ sc_type cfg = Parallel \/ sc_type cfg = Unknown \/
     sc_type cfg = Wait /\ forall w i now ov m, sc_wait_config cfg = Some w -> wait_time w i now <> inr (true, ov, m)).

(** Branches without parallel and wait states. *)
Definition simple_branches {T} (spec : workflow_spec T) : Prop :=
  forall p n cfg, declared spec (Some p) n cfg -> sc_type cfg <> Parallel /\ sc_type cfg <> Wait.

(** Same id, input, start time and output. *)
Definition same_identity (a b : wf_execution) : Prop :=
  we_id a = we_id b /\ we_input a = we_input b /\ we_started a = we_started b /\ we_output a = we_output b.

(** Every action of a schedule is of thread [t]. *)
Definition only (t : nat) (acts : list action) : Prop := Forall (fun a => a_thread a = t) acts.

(** Thread [t] waits for the branches run by the threads [ks], in branch order, of
    the top-level parallel state [name] configured by [cfg]. *)
Definition joining {T} (c : config T) (t : nat) (ks : list nat) (name : string) (cfg : state_config T) (input : json) : Prop :=
  exists st r, nth_error (c_threads T c) t = Some {| th_pc := PJoin T ks st cfg input; th_ret := r |} /\ es_name st = name.
(** Thread [t] has been announced as running the state [name] and is about to do
    its work. *)
Definition running {T} (c : config T) (t : nat) (name : string) (cfg : state_config T) (input : json) : Prop :=
  exists st r, nth_error (c_threads T c) t = Some {| th_pc := PBody T st cfg input None; th_ret := r |} /\ es_name st = name.
(** The branch run by thread [k] ended with a value, or failed. *)
Definition delivers {T} (c : config T) (k : nat) (v : json) : Prop :=
  exists r, nth_error (c_threads T c) k = Some {| th_pc := PDone T (Some v); th_ret := r |}.
Definition branch_failed {T} (c : config T) (k : nat) : Prop :=
  (exists r, nth_error (c_threads T c) k = Some {| th_pc := PDone T None; th_ret := r |}) \/ crashed_thread c k.
(** Thread [k] is about to start the state [name] of a branch of [parent]. *)
Definition starting {T} (c : config T) (k : nat) (name : string) (input : json) (parent : option string) : Prop :=
  exists r, nth_error (c_threads T c) k = Some {| th_pc := PStart T name input None parent; th_ret := r |}.
