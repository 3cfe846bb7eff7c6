(** Data types of the workflow runtime: the workflow definition
    (/repo/libs/runtime/blueprint-config-parser/src/blueprint.rs 778-985) and the
    stored executions (/repo/libs/runtime/workflow/src/workflow_executions.rs
    103-176). *)
From Verif Require Import Base Json.
Open Scope string_scope.

(** blueprint.rs 943-985 CelerityWorkflowStateType *)
Inductive state_type := ExecuteStep | Pass | Parallel | Wait | Decision | Failure | Success | Unknown.

(** blueprint.rs 912-930 *)
Record retry_config := {
  rt_match_errors : list string;
  rt_interval : option Z;
  rt_max_attempts : option Z;
  rt_max_delay : option Z;
  rt_jitter : option bool;
  rt_backoff_rate : option spec_float
}.
(** blueprint.rs 932-941 *)
Record catch_config := {
  ct_match_errors : list string;
  ct_next : string;
  ct_result_path : option string
}.
(** blueprint.rs 877-890 *)
Record wait_config := { wt_seconds : option string; wt_timestamp : option string }.

(** blueprint.rs 786-829, with the payload template abstracted to a type [T].
    Left out: description, decisions, result, timeout and failureConfig, which
    the state machine never reads.  Parallel branches (904-910) are pairs of a
    start state and the branch's states. *)
Inductive state_config (T : Type) := mk_state_config {
  sc_type : state_type;
  sc_input_path : option string;
  sc_result_path : option string;
  sc_output_path : option string;
  sc_payload_template : option T;
  sc_next : option string;
  sc_end : option bool;
  sc_wait_config : option wait_config;
  sc_parallel_branches : option (list (string * list (string * state_config T)));
  sc_retry : option (list retry_config);
  sc_catch : option (list catch_config)
}.
Arguments mk_state_config {T}. Arguments sc_type {T}. Arguments sc_input_path {T}.
Arguments sc_result_path {T}. Arguments sc_output_path {T}. Arguments sc_payload_template {T}.
Arguments sc_next {T}. Arguments sc_end {T}. Arguments sc_wait_config {T}.
Arguments sc_parallel_branches {T}. Arguments sc_retry {T}. Arguments sc_catch {T}.

(** blueprint.rs 778-784 *)
Record workflow_spec (T : Type) := {
  ws_start_at : string;
  ws_states : smap (state_config T)
}.
Arguments ws_start_at {T}. Arguments ws_states {T}. Arguments Build_workflow_spec {T}.

(** workflow_executions.rs 163-176 *)
Inductive status := Preparing | InProgress | Failed | Succeeded.

(** workflow_executions.rs 135-160.  The [duration] field is left out (it is
    only reported). *)
Inductive exec_state := mk_exec_state {
  es_name : string;
  es_type : state_type;
  es_parent : option string;
  es_input : json;
  es_started : Z;
  es_completed : option Z;
  es_status : status;
  es_attempt : Z;
  es_error : option string;
  es_parallel : list (list exec_state);
  es_raw_output : option json;
  es_output : option json
}.

(** workflow_executions.rs 117-132, without [duration]. *)
Record wf_execution := {
  we_id : string;
  we_input : json;
  we_output : option json;
  we_started : Z;
  we_completed : option Z;
  we_status : status;
  we_status_detail : string;
  we_current_state : option string;
  we_states : list exec_state
}.

(** workflow_executions.rs 103-114: no output field. *)
Record save_payload := {
  sp_input : json;
  sp_started : Z;
  sp_completed : option Z;
  sp_status : status;
  sp_status_detail : string;
  sp_current_state : option string;
  sp_states : list exec_state
}.
