(** Vocabulary for C134: states that cannot be executed, progress that cannot be
    saved. *)
From Verif Require Import Base Json WfTypes StateMachineModel StateMachineSpec.
Open Scope string_scope.

(** Why a state of the workflow cannot do its work. *)
Inductive unusable {T} (has_handler : string -> bool)
    (wait_time : wait_config -> json -> Z -> N + (bool * option string * string))
    (name : string) (cfg : state_config T) (input : json) (now : Z) : string -> Prop :=
| no_handler : sc_type cfg = ExecuteStep -> has_handler name = false ->
    unusable has_handler wait_time name cfg input now "No handler found for state"
| no_branches : sc_type cfg = Parallel -> sc_parallel_branches cfg = None ->
    unusable has_handler wait_time name cfg input now "Parallel state is missing parallel_branches field"
| empty_branches : sc_type cfg = Parallel -> sc_parallel_branches cfg = Some [] ->
    unusable has_handler wait_time name cfg input now "Parallel state has no parallel branches"
| no_wait : sc_type cfg = Wait -> sc_wait_config cfg = None ->
    unusable has_handler wait_time name cfg input now "Wait state is missing wait_config field"
| bad_wait w m : sc_type cfg = Wait -> sc_wait_config cfg = Some w -> wait_time w input now = inr (false, None, m) ->
    unusable has_handler wait_time name cfg input now m
| unknown_type : sc_type cfg = Unknown ->
    unusable has_handler wait_time name cfg input now "Unsupported state type: Unknown".

(** Thread [t] is about to start the top-level state [name]. *)
Definition about {T} (c : config T) (t : nat) (name : string) (input : json) : Prop :=
  exists prev r, nth_error (c_threads T c) t = Some {| th_pc := PStart T name input prev None; th_ret := r |}.

(** Thread [t] is over, and the execution has failed in the state [name] with the
    text [text]; [s] is the record of that state. *)
Definition failed_at {T} (c : config T) (t : nat) (now : Z) (name text : string) (s : exec_state) : Prop :=
  ended_thread c t /\ c_lock T c = None
  /\ we_status (c_exec T c) = Failed /\ we_status_detail (c_exec T c) = text
  /\ In s (we_states (c_exec T c)) /\ es_name s = name /\ es_status s = Failed
  /\ es_error s = Some text /\ es_completed s = Some now.
