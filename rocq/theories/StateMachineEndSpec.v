(** Vocabulary for how the execution of a workflow comes to its end without a word: the reasons for
    which it stops without a completion, and those for which it crashes. *)
From Verif Require Import Base Json WfTypes StateMachineModel StateMachineSpec.
Open Scope string_scope.

(** The status of an execution that is over *)
Definition over (s : status) : Prop := s = Succeeded \/ s = Failed.

Section Ends.
  Context {T : Type}.
  Variable render : T -> json -> json + render_error.
  Variable extract : json -> string -> json + string.
  Variable inject : json -> string -> json -> json + string.
  Variable has_handler : string -> bool.
  Variable wait_time : wait_config -> json -> Z -> N + (bool * option string * string).
  Variable spec : workflow_spec T.

  (** A state of the workflow, outside the branches of its parallel states. *)
  Definition state (n : string) (cfg : state_config T) : Prop := lookup n (ws_states spec) = Some cfg.
  (** The last that was seen of the execution is that the state started. *)
  Definition just_started (fs : list effect) (n : string) : Prop :=
    exists h prev st, fs = (h ++ [FEvent (EvTransition prev st)])%list /\ es_name st = n.
  (** No rule of the state is for errors of this name. *)
  Definition uncaught (err : string) (cfg : state_config T) : Prop :=
    no_match (fun r => names_error err (ct_match_errors r)) (sc_catch cfg).
  (** The definition says that the state is the first one, or follows another, or follows its failure. *)
  Definition asked_for (n : string) : Prop :=
    n = ws_start_at spec \/
    exists n' cfg, state n' cfg /\
      (sc_next cfg = Some n \/ exists rules r, sc_catch cfg = Some rules /\ In r rules /\ ct_next r = n).

  (** Reasons to stop without a word, for an execution that was seen to do [fs]. *)
  Inductive goes_silent (fs : list effect) : Prop :=
  | Stub n cfg : just_started fs n -> state n cfg -> In (sc_type cfg) [Decision; Pass; Success; Failure] ->
      goes_silent fs
  | Bad_path n cfg p v m : state n cfg -> sc_input_path cfg = Some p -> extract v p = inr m ->
      uncaught "InvalidInputPath" cfg -> goes_silent fs
  | Bad_template n cfg tpl v e : just_started fs n -> state n cfg -> sc_type cfg = ExecuteStep -> has_handler n = true ->
      sc_payload_template cfg = Some tpl -> render tpl v = inr e -> uncaught "" cfg -> goes_silent fs
  | Bad_wait n cfg w v now at_ m : just_started fs n -> state n cfg -> sc_type cfg = Wait -> sc_wait_config cfg = Some w ->
      wait_time w v now = inr (true, at_, m) -> (at_ = None -> uncaught "" cfg) -> goes_silent fs.

  (** Reasons to crash. *)
  Inductive crashes (fs : list effect) : Prop :=
  | Missing n : asked_for n -> lookup n (ws_states spec) = None -> crashes fs
  | Final_save h p : fs = (h ++ [FSave p false])%list -> sp_status p = Succeeded -> crashes fs
  | Wait_elsewhere n cfg w v now n' m tp : just_started fs n -> state n cfg -> sc_type cfg = Wait -> sc_wait_config cfg = Some w ->
      wait_time w v now = inr (tp, Some n', m) -> crashes fs
  | Bad_catch n cfg p v m rules r rp msg m' : state n cfg -> sc_input_path cfg = Some p -> extract v p = inr m ->
      sc_catch cfg = Some rules -> first_match (fun r => names_error "InvalidInputPath" (ct_match_errors r)) rules r ->
      ct_result_path r = Some rp ->
      inject v rp (JObj [("cause", JStr msg); ("error", JStr "InvalidInputPath")]) = inr m' -> crashes fs.
End Ends.
