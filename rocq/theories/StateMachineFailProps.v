(** C134: what becomes of an execution when a state cannot be executed or its
    progress cannot be saved *)
From Verif Require Import Base Json WfTypes StateMachineModel StateMachineSpec StateMachineProofs StateMachineErr StateMachineFailSpec StateMachineFail StateMachineProps.
Open Scope list_scope.

Section Props.
  Context {T : Type}.
  Variable render : T -> json -> json + render_error.
  Variable extract : json -> string -> json + string.
  Variable inject : json -> string -> json -> json + string.
  Variable has_handler : string -> bool.
  Variable wait_time : wait_config -> json -> Z -> N + (bool * option string * string).
  Variable spec : workflow_spec T.
  Notation REACH := (reachable render extract inject has_handler wait_time spec).
  Notation DRIVE := (drive render extract inject has_handler wait_time spec).

  (** A state that has no handler, no branches, no wait or an unknown type fails the
      execution at once, and the failure is stored and announced with the cause. *)
  Theorem C134_unusable_state : forall c t name cfg input initial msg (saved : option string) (now : Z),
    we_states initial = [] -> REACH initial c -> running c t name cfg input -> c_lock T c = None ->
    unusable has_handler wait_time name cfg input now msg ->
    exists acts c' s,
      DRIVE c t acts [FSave (payload_of (c_exec T c')) (match saved with None => true | Some _ => false end);
                      FEvent (EvFailure s); FEvent (EvComplete (c_exec T c'))] c'
      /\ handler_answers acts = [] /\ failed_at c' t now name (failure_text name "InvalidState" msg) s.
  Proof. exact (unusable_final render extract inject has_handler wait_time spec). Qed.

  (** So does a state that neither ends the execution nor names a successor, but
      only after its result was stored. *)
  Theorem C134_no_successor : forall c t name input o v initial cfg (saved : option string) (now : Z),
    we_states initial = [] -> REACH initial c -> awaiting c t name input -> c_lock T c = None ->
    lookup name (ws_states spec) = Some cfg -> passes_on extract inject cfg input o v ->
    sc_next cfg = None -> sc_end cfg <> Some true ->
    exists acts c' p s,
      DRIVE c t acts [FSave p true; FSave (payload_of (c_exec T c')) (match saved with None => true | Some _ => false end);
                      FEvent (EvFailure s); FEvent (EvComplete (c_exec T c'))] c'
      /\ handler_answers acts = [inl o]
      /\ failed_at c' t now name (failure_text name "InvalidState" "State is missing next or end field") s
      /\ exists s0, In s0 (sp_states p) /\ es_name s0 = name /\ es_status s0 = Succeeded /\ es_output s0 = Some v.
  Proof. exact (no_successor_final render extract inject has_handler wait_time spec). Qed.

  (** An input path that selects nothing is routed by the first rule that names it,
      with the cause; nothing is stored or announced about the state that failed. *)
  Theorem C134_input_path_caught : forall c t name input cfg p m rules rule cfg' input' i' (now : Z),
    about c t name input -> c_lock T c = None -> lookup name (ws_states spec) = Some cfg ->
    sc_input_path cfg = Some p -> extract input p = inr m ->
    sc_catch cfg = Some rules -> first_match (fun r => names_error "InvalidInputPath" (ct_match_errors r)) rules rule ->
    lookup (ct_next rule) (ws_states spec) = Some cfg' ->
    caught_input inject rule "InvalidInputPath" ("Failed to extract value from input JSON path: " ++ m)%string input input' ->
    through extract (sc_input_path cfg') input' i' ->
    exists acts c' q prev st,
      DRIVE c t acts [FSave q true; FEvent (EvTransition prev st)] c' /\ handler_answers acts = []
      /\ running c' t (ct_next rule) cfg' input' /\ c_lock T c' = None
      /\ es_name st = ct_next rule /\ es_input st = i' /\ saved_with q st.
  Proof. exact (input_path_caught render extract inject has_handler wait_time spec). Qed.

  (** A rule that catches an error but cannot place it into the input fails the
      execution a second time, with the second cause. *)
  Theorem C134_caught_in_vain : forall c t name input err msg (saved saved' : option string) (now : Z) initial cfg rules rule p m,
    we_states initial = [] -> REACH initial c ->
    awaiting c t name input -> c_lock T c = None -> lookup name (ws_states spec) = Some cfg ->
    not_retried (shown_error err) (sc_retry cfg) ->
    sc_catch cfg = Some rules -> first_match (fun r => names_error err (ct_match_errors r)) rules rule ->
    ct_result_path rule = Some p ->
    inject input p (JObj [("cause", JStr ("Execute step failed: " ++ msg)); ("error", JStr err)])%string = inr m ->
    exists acts c' e s1 s,
      DRIVE c t acts [FSave (payload_of e) (match saved with None => true | Some _ => false end);
                      FEvent (EvFailure s1); FEvent (EvComplete e);
                      FSave (payload_of (c_exec T c')) (match saved' with None => true | Some _ => false end);
                      FEvent (EvFailure s); FEvent (EvComplete (c_exec T c'))] c'
      /\ handler_answers acts = [inr (err, msg)]
      /\ we_status e = Failed /\ we_status_detail e = detail_of name (shown_error err) msg
      /\ failed_at c' t now name (failure_text name "InvalidResultPath" ("Failed to inject error information from result path into input: " ++ m)) s.
  Proof. exact (caught_in_vain render extract inject has_handler wait_time spec). Qed.

  (** Refuted: that the store shows a failed execution as failed.  When the start or
      the result of a state cannot be saved, the failure is announced, once, and no
      save is attempted again ... *)
  Theorem C134_unsaved_start_refuted : forall c t name input i cfg m (now : Z),
    about c t name input -> c_lock T c = None ->
    lookup name (ws_states spec) = Some cfg -> through extract (sc_input_path cfg) input i ->
    exists acts c' p s,
      DRIVE c t acts [FSave p false; FEvent (EvFailure s); FEvent (EvComplete (c_exec T c'))] c'
      /\ handler_answers acts = []
      /\ failed_at c' t now name (failure_text name "PersistFailed" ("Failed to persist state transition: " ++ m)) s.
  Proof. exact (unsaved_start_final render extract inject has_handler wait_time spec). Qed.
  Theorem C134_unsaved_result_refuted : forall c t name input o v initial cfg m (now : Z),
    we_states initial = [] -> REACH initial c -> awaiting c t name input -> c_lock T c = None ->
    lookup name (ws_states spec) = Some cfg -> passes_on extract inject cfg input o v ->
    exists acts c' p s,
      DRIVE c t acts [FSave p false; FEvent (EvFailure s); FEvent (EvComplete (c_exec T c'))] c'
      /\ handler_answers acts = [inl o]
      /\ failed_at c' t now name (failure_text name "PersistFailed" ("Failed to persist state transition: " ++ m)) s.
  Proof. exact (unsaved_result_final render extract inject has_handler wait_time spec). Qed.

  (** ... and a successor that does not exist crashes the execution right after the
      result of its predecessor was stored: no failure is stored or announced. *)
  Theorem C134_missing_successor_refuted : forall c t name input o v initial cfg next (now : Z),
    we_states initial = [] -> REACH initial c -> awaiting c t name input -> c_lock T c = None ->
    lookup name (ws_states spec) = Some cfg -> passes_on extract inject cfg input o v ->
    sc_next cfg = Some next -> lookup next (ws_states spec) = None -> ~ In next (map es_name (we_states (c_exec T c))) ->
    exists acts c' p, DRIVE c t acts [FSave p true] c' /\ handler_answers acts = [inl o] /\ crashed_thread c' t
      /\ sp_status p = we_status (c_exec T c).
  Proof. exact (missing_next render extract inject has_handler wait_time spec). Qed.
  (** So does a failing save of the end of the execution, whatever its cause [m]. *)
  Theorem C134_unsaved_end_refuted : forall c t name input o v initial cfg m (now : Z),
    we_states initial = [] -> REACH initial c -> awaiting c t name input -> c_lock T c = None ->
    lookup name (ws_states spec) = Some cfg -> passes_on extract inject cfg input o v ->
    sc_next cfg = None -> sc_end cfg = Some true -> ~ In "unknown"%string (map es_name (we_states (c_exec T c))) ->
    exists acts c' p q, DRIVE c t acts [FSave p true; FSave q false] c' /\ handler_answers acts = [inl o] /\ crashed_thread c' t
      /\ sp_status p = we_status (c_exec T c) /\ sp_status q = Succeeded
      /\ In (ASaved (Some m)) (map a_answer acts).
  Proof. exact (unsaved_end render extract inject has_handler wait_time spec). Qed.
End Props.

(** Reachable configurations that meet the hypotheses: a wait without its field is
    running; a step without successor is awaited; a step is about to start; an input
    path that fails has a rule; a step with a successor that does not exist. *)
Definition bad (ty : state_type) (next : option string) (ip : option string) (cs : option (list catch_config)) : workflow_spec (option string) :=
  {| ws_start_at := "a"; ws_states := [("a", mk_state_config ty ip None None None next None None None None cs)] |}.
Definition ex_rule : catch_config := {| ct_match_errors := ["InvalidInputPath"]; ct_next := "a"; ct_result_path := None |}.
Definition ex_vain : workflow_spec (option string) := bad ExecuteStep None None (Some [ex_catch]).
Example C134_nonvacuous :
  (exists c cfg, ex_run (bad Wait None None None) ex_input [n_; n_; s_; n_] = Some c /\ running c 0 "a" cfg ex_input /\ c_lock _ c = None
     /\ unusable ex_handlers ex_wait "a" cfg ex_input 7 "Wait state is missing wait_config field")
  /\ (exists c cfg, ex_run (bad ExecuteStep None None None) ex_input to_call = Some c /\ awaiting c 0 "a" ex_input /\ c_lock _ c = None
     /\ lookup "a" (ws_states (bad ExecuteStep None None None)) = Some cfg /\ passes_on ex_extract ex_inject cfg ex_input JNull JNull
     /\ sc_next cfg = None /\ sc_end cfg <> Some true)
  /\ (exists c cfg, ex_run (bad ExecuteStep (Some "b") None None) ex_input to_call = Some c /\ awaiting c 0 "a" ex_input /\ c_lock _ c = None
     /\ lookup "a" (ws_states (bad ExecuteStep (Some "b") None None)) = Some cfg /\ sc_next cfg = Some "b"
     /\ lookup "b" (ws_states (bad ExecuteStep (Some "b") None None)) = None /\ ~ In "b" (map es_name (we_states (c_exec _ c))))
  /\ (exists c cfg, ex_run ex_spec (JObj []) [] = Some c /\ about c 0 "a" (JObj []) /\ c_lock _ c = None
     /\ lookup "a" (ws_states ex_spec) = Some cfg /\ sc_input_path cfg = Some "x" /\ ex_extract (JObj []) "x" = inr "nothing found")
  /\ first_match (fun r => names_error "InvalidInputPath" (ct_match_errors r)) [ex_catch; ex_rule] ex_rule
  /\ (exists c cfg, ex_run ex_plain ex_input to_call = Some c /\ awaiting c 0 "a" ex_input /\ c_lock _ c = None
     /\ lookup "a" (ws_states ex_plain) = Some cfg /\ sc_next cfg = None /\ sc_end cfg = Some true
     /\ ~ In "unknown" (map es_name (we_states (c_exec _ c))))
  /\ (exists c cfg, ex_run ex_vain (JStr "x") to_call = Some c /\ awaiting c 0 "a" (JStr "x") /\ c_lock _ c = None
     /\ lookup "a" (ws_states ex_vain) = Some cfg /\ sc_catch cfg = Some [ex_catch] /\ not_retried (shown_error "Denied") (sc_retry cfg)
     /\ ct_result_path ex_catch = Some "why" /\ forall w, ex_inject (JStr "x") "why" w = inr "not an object").
Proof.
  split; [do 2 eexists; split; [vm_compute; reflexivity|]; split; [do 2 eexists; split; reflexivity|]; split; [reflexivity|]; apply no_wait; reflexivity|].
  split; [do 2 eexists; split; [vm_compute; reflexivity|]; split; [do 3 eexists; split; reflexivity|]; split; [reflexivity|]; split; [reflexivity|]; split; [reflexivity|]; split; [reflexivity|discriminate]|].
  split; [do 2 eexists; split; [vm_compute; reflexivity|]; split; [do 3 eexists; split; reflexivity|]; split; [reflexivity|]; split; [reflexivity|]; split; [reflexivity|]; split; [reflexivity|]; intros [X|[]]; discriminate X|].
  split; [do 2 eexists; split; [vm_compute; reflexivity|]; split; [do 2 eexists; reflexivity|]; split; [reflexivity|]; split; [reflexivity|]; split; reflexivity|].
  split; [exists [ex_catch], []; split; [reflexivity|]; split; [right; now left|]; intros x [<-|[]] [[X|[]]|[X|[]]]; discriminate X|].
  split; [do 2 eexists; split; [vm_compute; reflexivity|]; split; [do 3 eexists; split; reflexivity|]; split; [reflexivity|]; split; [reflexivity|]; split; [reflexivity|]; split; [reflexivity|]; intros [X|[]]; discriminate X|].
  do 2 eexists; split; [vm_compute; reflexivity|]; split; [do 3 eexists; split; reflexivity|]; split; [reflexivity|]; split; [reflexivity|]; split; [reflexivity|]; split; [left; intros rs r X; discriminate X|]; split; [reflexivity|]. intros w. reflexivity.
Qed.

Print Assumptions C134_unusable_state.
Print Assumptions C134_no_successor.
Print Assumptions C134_input_path_caught.
Print Assumptions C134_caught_in_vain.
Print Assumptions C134_unsaved_end_refuted.
Print Assumptions C134_unsaved_start_refuted.
Print Assumptions C134_unsaved_result_refuted.
Print Assumptions C134_missing_successor_refuted.
