(** Theorems about workflow executions (C12-C16, C18-C20, C58, C59).
    Model: StateMachineModel.v.  Vocabulary: StateMachineSpec.v.

    The theorems hold for every template engine ([render], [extract], [inject]),
    table of handlers, wait time function and workflow definition.  A schedule is
    a list of actions; each names the thread that advances, the clock and the
    answer of the environment, and determines the next configuration. *)
From Verif Require Import Base Json WfTypes StateMachineModel StateMachineSpec StateMachineProofs
  StateMachineSeq StateMachineErr StateMachineMore StateMachineCases.
Open Scope string_scope.
Open Scope list_scope.

Section Props.
  Context {T : Type}.
  Variable render : T -> json -> json + render_error.
  Variable extract : json -> string -> json + string.
  Variable inject : json -> string -> json -> json + string.
  Variable has_handler : string -> bool.
  Variable wait_time : wait_config -> json -> Z -> N + (bool * option string * string).
  Variable spec : workflow_spec T.
  Notation SM_STEP := (sm_step T render extract inject has_handler wait_time spec).
  Notation RUN := (sm_run T render extract inject has_handler wait_time spec).
  Notation REACH := (reachable render extract inject has_handler wait_time spec).
  Notation DRIVE := (drive render extract inject has_handler wait_time spec).
  Notation CHAIN := (chain render extract inject has_handler spec).

  (** *** C13 *)

  (** A workflow whose states are steps linked by [next] up to a state marked
      [end]: the handlers are called in that order, each once, each with the
      value passed on by the one before; and when nothing more can happen the
      execution was stored and announced as succeeded, exactly once. *)
  Theorem C13_sequential_order : forall initial acts c outs cs final,
    we_states initial = [] -> CHAIN (ws_start_at spec) (we_input initial) outs cs final ->
    RUN (sm_init T spec initial) acts = Some c ->
    saves_succeed acts -> is_prefix (handler_answers acts) (answered outs) ->
    let fs := effects (c_log T c) in
    is_prefix (calls fs) cs /\ is_prefix (started fs) (map fst cs) /\ failures fs = [] /\
    (length acts < 9 * length cs + 3 /\
       (exists a c', SM_STEP c a = Some c' /\ saves_succeed [a]
          /\ is_prefix (handler_answers (acts ++ [a])) (answered outs))
     \/ length acts = 9 * length cs + 3 /\ calls fs = cs /\ started fs = map fst cs /\
        exists f0 e, fs = f0 ++ [FSave (payload_of e) true; FEvent (EvComplete e)]
          /\ completions f0 = [] /\ we_status e = Succeeded
          /\ Forall2 finished (we_states e) (combine cs outs)).
  Proof. exact (sequence render extract inject has_handler wait_time spec). Qed.

  (** *** C14 *)

  (** A state's start is announced right after the execution showing it as the
      current state was stored. *)
  Theorem C14_transition_saved_first : forall initial c pre t prev st post,
    we_states initial = [] -> REACH initial c ->
    c_log T c = pre ++ (t, FEvent (EvTransition prev st)) :: post ->
    exists h p, effects_of t pre = h ++ [FSave p true] /\ saved_with p st.
  Proof.
    intros initial c pre t prev st post Hi R E.
    assert (I : inv render extract has_handler spec c) by (eapply inv_reachable; eauto).
    exact (inv_log _ _ _ _ _ I _ _ _ _ E).
  Qed.

  (** A handler is called right after its state's start was stored and announced;
      so not at all when that save fails. *)
  Theorem C14_call_announced_first : forall initial c pre t n v post,
    we_states initial = [] -> REACH initial c ->
    c_log T c = pre ++ (t, FCall n v) :: post ->
    exists h p prev st, effects_of t pre = h ++ [FSave p true; FEvent (EvTransition prev st)]
      /\ saved_with p st /\ es_name st = n.
  Proof.
    intros initial c pre t n v post Hi R E.
    assert (I : inv render extract has_handler spec c) by (eapply inv_reachable; eauto).
    destruct (inv_log _ _ _ _ _ I _ _ _ _ E) as (h & p & prev & st & cfg & parent & input & A & B & C & _).
    exists h, p, prev, st. auto.
  Qed.

  (** A successful completion is announced right after that very execution was
      stored; a failed one right after its failed state was announced. *)
  Theorem C14_completion_saved_first : forall initial c pre t e post,
    we_states initial = [] -> REACH initial c ->
    c_log T c = pre ++ (t, FEvent (EvComplete e)) :: post ->
    (we_status e = Succeeded /\ exists h, effects_of t pre = h ++ [FSave (payload_of e) true])
    \/ (we_status e = Failed /\ exists h s, effects_of t pre = h ++ [FEvent (EvFailure s)]
          /\ In s (we_states e) /\ es_status s = Failed).
  Proof.
    intros initial c pre t e post Hi R E.
    assert (I : inv render extract has_handler spec c) by (eapply inv_reachable; eauto).
    exact (inv_log _ _ _ _ _ I _ _ _ _ E).
  Qed.

  (** For failures the property is false: whatever happens to the save ([saved] is
      its error), the failed state and the failed execution are announced. *)
  Theorem C14_failure_saved_first_refuted : forall c t name input err msg (m : string) (now : Z) initial cfg,
    we_states initial = [] -> REACH initial c ->
    awaiting c t name input -> c_lock T c = None -> lookup name (ws_states spec) = Some cfg ->
    not_retried (shown_error err) (sc_retry cfg) ->
    no_match (fun r => names_error err (ct_match_errors r)) (sc_catch cfg) ->
    exists acts c' s p,
      DRIVE c t acts [FSave p false; FEvent (EvFailure s); FEvent (EvComplete (c_exec T c'))] c'
      /\ handler_answers acts = [inr (err, msg)] /\ we_status (c_exec T c') = Failed.
  Proof.
    intros c t name input err msg m now initial cfg Hi R A L Hc Nr Nc.
    destruct (handler_failure_final render extract inject has_handler wait_time spec
      c t name input err msg (Some m) now initial cfg) as (acts & c' & s & D & HA & _ & _ & W & _); auto.
    exists acts, c', s, (payload_of (c_exec T c')). auto.
  Qed.

  (** *** C15 *)

  (** A retry happens only for a state with a retry rule that matches an error and
      allows at least one attempt, and after the failure was announced ... *)
  Theorem C15_retry_needs_rule : forall initial c pre t n k post,
    we_states initial = [] -> REACH initial c ->
    c_log T c = pre ++ (t, FRetryDelay n k) :: post ->
    (exists h s, effects_of t pre = h ++ [FEvent (EvFailure s)]) /\
    exists cfg rs r err, lookup n (ws_states spec) = Some cfg /\ sc_retry cfg = Some rs /\ In r rs
      /\ names_error err (rt_match_errors r) /\ limit_allows r.
  Proof.
    intros initial c pre t n k post Hi R E.
    assert (I : inv render extract has_handler spec c) by (eapply inv_reachable; eauto).
    destruct (inv_log _ _ _ _ _ I _ _ _ _ E) as (_ & H & cfg & rs & r & en & A & B & C & D & F).
    split; [exact H|]. exists cfg, rs, r, en. apply error_matches_spec in D.
    unfold derive_state_config in A. destruct (lookup n (ws_states spec)) eqn:El; [|discriminate].
    inversion A; subst. auto.
  Qed.

  (** ... but however small the positive limit, there can be any number [n] of
      further calls of the same failing step. *)
  Theorem C15_retries_bounded_refuted : forall n initial cfg rs rule err msg c t name input,
    we_states initial = [] -> REACH initial c ->
    awaiting c t name input -> c_lock T c = None -> lookup name (ws_states spec) = Some cfg ->
    sc_retry cfg = Some rs -> first_match (fun r => names_error (shown_error err) (rt_match_errors r)) rs rule ->
    limit_allows rule ->
    exists acts c', RUN c acts = Some c' /\ only t acts /\ Forall (fun x => x = inr (err, msg)) (handler_answers acts)
      /\ length (calls (effects (c_log T c'))) = n + length (calls (effects (c_log T c)))
      /\ awaiting c' t name input.
  Proof. intros n initial cfg rs rule err msg c t name input. intros. eapply retries_unbounded; eauto. Qed.

  (** *** C16 *)

  (** The first retry rule that names the error or holds the wildcard, if it allows
      an attempt, makes the state start again with the same input ... *)
  Theorem C16_first_retry_rule_applies : forall c t name input err msg (saved : option string) (now : Z) initial cfg rs rule,
    we_states initial = [] -> REACH initial c ->
    awaiting c t name input -> c_lock T c = None -> lookup name (ws_states spec) = Some cfg ->
    sc_retry cfg = Some rs -> first_match (fun r => names_error (shown_error err) (rt_match_errors r)) rs rule ->
    limit_allows rule ->
    exists acts c' p s q prev st v,
      DRIVE c t acts [FSave p (match saved with None => true | Some _ => false end);
                      FEvent (EvFailure s); FRetryDelay name (-1); FSave q true;
                      FEvent (EvTransition prev st); FCall name v] c'
      /\ handler_answers acts = [inr (err, msg)]
      /\ awaiting c' t name input /\ c_lock T c' = None /\ REACH initial c'
      /\ sp_status p = we_status (c_exec T c)
      /\ es_name s = name /\ es_name st = name
      /\ payload_is render (sc_payload_template cfg) input v
      /\ through extract (sc_input_path cfg) input (es_input st)
      /\ es_attempt st = 2%Z.
  Proof. exact (handler_failure_retried render extract inject has_handler wait_time spec). Qed.

  (** ... and if that rule allows no attempt, or none matches, the first catch rule that matches takes
      over: its next state starts, with the state's input in which the error was
      placed if the rule says so. *)
  Theorem C16_first_catch_rule_applies : forall c t name input err msg (saved : option string) (now : Z) initial cfg rules rule cfg' input' i',
    we_states initial = [] -> REACH initial c ->
    awaiting c t name input -> c_lock T c = None -> lookup name (ws_states spec) = Some cfg ->
    not_retried (shown_error err) (sc_retry cfg) ->
    sc_catch cfg = Some rules -> first_match (fun r => names_error err (ct_match_errors r)) rules rule ->
    lookup (ct_next rule) (ws_states spec) = Some cfg' ->
    caught_input inject rule err ("Execute step failed: " ++ msg)%string input input' ->
    through extract (sc_input_path cfg') input' i' ->
    exists acts c' e s q prev st,
      DRIVE c t acts [FSave (payload_of e) (match saved with None => true | Some _ => false end);
                      FEvent (EvFailure s); FEvent (EvComplete e); FSave q true;
                      FEvent (EvTransition prev st)] c'
      /\ handler_answers acts = [inr (err, msg)] /\ c_lock T c' = None /\ REACH initial c'
      /\ we_status e = Failed /\ es_name s = name /\ es_status s = Failed
      /\ es_name st = ct_next rule /\ es_input st = i'
      /\ sp_status q = InProgress /\ q = payload_of (c_exec T c').
  Proof. exact (handler_failure_caught render extract inject has_handler wait_time spec). Qed.

  (** An error of the state's payload template has no name, so no rule that lists
      names catches it: the execution ends with nothing more stored or announced. *)
  Theorem C16_template_error_caught_by_name_refuted : forall initial cfg i tpl e,
    lookup (ws_start_at spec) (ws_states spec) = Some cfg ->
    through extract (sc_input_path cfg) (we_input initial) i ->
    sc_type cfg = ExecuteStep -> has_handler (ws_start_at spec) = true ->
    sc_payload_template cfg = Some tpl -> render tpl (we_input initial) = inr e ->
    no_match (fun r => In "*" (ct_match_errors r) \/ In "" (ct_match_errors r)) (sc_catch cfg) ->
    exists acts c p st, DRIVE (sm_init T spec initial) 0 acts [FSave p true; FEvent (EvTransition None st)] c
      /\ ended_thread c 0 /\ (forall a, SM_STEP c a = None) /\ we_status (c_exec T c) = InProgress.
  Proof. exact (silent_template render extract inject has_handler wait_time spec). Qed.

  (** *** C18 *)

  (** A parallel state starts all its branches, each at its start state with the
      state's input, and waits for them ... *)
  Theorem C18_all_branches_started : forall c t name cfg input bs,
    running c t name cfg input -> sc_type cfg = Parallel -> sc_parallel_branches cfg = Some bs -> bs <> [] ->
    exists a c', SM_STEP c a = Some c' /\ a_thread a = t
      /\ joining c' t (seq (length (c_threads T c)) (length bs)) name cfg input
      /\ forall i b, nth_error bs i = Some b ->
           (lookup (fst b) (snd b) <> None -> starting c' (length (c_threads T c) + i) (fst b) input (Some name))
           /\ (lookup (fst b) (snd b) = None -> branch_failed c' (length (c_threads T c) + i)).
  Proof. exact (branches_started render extract inject has_handler wait_time spec). Qed.

  (** ... it goes on exactly when all of them are over ... *)
  Theorem C18_waits_for_all : forall c t ks name cfg input, joining c t ks name cfg input ->
    ((exists a c', SM_STEP c a = Some c' /\ a_thread a = t)
     <-> Forall (fun k => ended_thread c k \/ crashed_thread c k) ks).
  Proof. exact (join_waits render extract inject has_handler wait_time spec). Qed.

  (** ... when all delivered, its output is the list of their values in the order
      of the branches ... *)
  Theorem C18_results_in_branch_order : forall c t ks name cfg input initial vs final (now : Z),
    we_states initial = [] -> REACH initial c -> c_lock T c = None ->
    joining c t ks name cfg input -> Forall2 (delivers c) ks vs ->
    passes_on extract inject cfg input (JArr vs) final ->
    exists acts c' p s,
      DRIVE c t acts [FSave p true] c' /\ handler_answers acts = [] /\ c_lock T c' = None
      /\ p = payload_of (c_exec T c') /\ In s (sp_states p) /\ es_name s = name /\ es_status s = Succeeded
      /\ es_raw_output s = Some (JArr vs) /\ es_output s = Some final /\ es_completed s = Some now.
  Proof. exact (join_success render extract inject has_handler wait_time spec). Qed.

  (** ... and when one failed, so does the state. *)
  Theorem C18_branch_failure_fails_state : forall c t ks name cfg input initial (saved : option string) (now : Z),
    we_states initial = [] -> REACH initial c -> c_lock T c = None ->
    joining c t ks name cfg input -> Forall (fun k => ended_thread c k \/ crashed_thread c k) ks ->
    (exists k, In k ks /\ branch_failed c k) -> lookup name (ws_states spec) = Some cfg ->
    not_retried "BranchesFailed" (sc_retry cfg) ->
    no_match (fun r => names_error "BranchesFailed" (ct_match_errors r)) (sc_catch cfg) ->
    exists acts c' s,
      DRIVE c t acts [FSave (payload_of (c_exec T c')) (match saved with None => true | Some _ => false end);
                      FEvent (EvFailure s); FEvent (EvComplete (c_exec T c'))] c'
      /\ handler_answers acts = [] /\ ended_thread c' t /\ c_lock T c' = None
      /\ we_status (c_exec T c') = Failed
      /\ In s (we_states (c_exec T c')) /\ es_name s = name /\ es_status s = Failed /\ es_completed s = Some now.
  Proof. exact (join_failure render extract inject has_handler wait_time spec). Qed.

  (** But no branch made of steps ever delivers what its states computed: the only
      value a branch can deliver is the empty object. *)
  Theorem C18_branch_outputs_collected_refuted : forall initial c k v,
    we_states initial = [] -> simple_branches spec -> REACH initial c ->
    1 <= k -> delivers c k v -> v = JObj [].
  Proof. intros initial c k v Hi S R Hk (r & E). eapply branch_result; eauto. Qed.

  (** *** C19 *)

  (** A handler failure no rule applies to is stored and announced as a failed
      state and a failed execution, with the error. *)
  Theorem C19_handler_failure_visible : forall c t name input err msg (saved : option string) (now : Z) initial cfg,
    we_states initial = [] -> REACH initial c ->
    awaiting c t name input -> c_lock T c = None -> lookup name (ws_states spec) = Some cfg ->
    not_retried (shown_error err) (sc_retry cfg) ->
    no_match (fun r => names_error err (ct_match_errors r)) (sc_catch cfg) ->
    exists acts c' s,
      DRIVE c t acts [FSave (payload_of (c_exec T c')) (match saved with None => true | Some _ => false end);
                      FEvent (EvFailure s); FEvent (EvComplete (c_exec T c'))] c'
      /\ handler_answers acts = [inr (err, msg)]
      /\ ended_thread c' t /\ c_lock T c' = None
      /\ we_status (c_exec T c') = Failed
      /\ we_status_detail (c_exec T c') = detail_of name (shown_error err) msg
      /\ In s (we_states (c_exec T c')) /\ es_name s = name /\ es_status s = Failed
      /\ es_error s = Some (detail_of name (shown_error err) msg) /\ es_completed s = Some now.
  Proof. exact (handler_failure_final render extract inject has_handler wait_time spec). Qed.

  (** So is an answer whose result path or output path cannot be applied. *)
  Theorem C19_output_failure_visible : forall c t name input o m (saved : option string) (now : Z) initial cfg,
    we_states initial = [] -> REACH initial c ->
    awaiting c t name input -> c_lock T c = None -> lookup name (ws_states spec) = Some cfg ->
    let err := match sc_result_path cfg with Some _ => "InvalidResultPath" | None => "InvalidOutputPath" end in
    let cause := match sc_result_path cfg with
                 | Some _ => "Failed to inject output from result path into input: " ++ m
                 | None => "Failed to extract value from output JSON path: " ++ m
                 end%string in
    match sc_result_path cfg, sc_output_path cfg with
    | Some p, _ => inject input p o = inr m
    | None, Some p => extract o p = inr m
    | None, None => False
    end ->
    not_retried err (sc_retry cfg) ->
    no_match (fun r => names_error err (ct_match_errors r)) (sc_catch cfg) ->
    exists acts c' s,
      DRIVE c t acts [FSave (payload_of (c_exec T c')) (match saved with None => true | Some _ => false end);
                      FEvent (EvFailure s); FEvent (EvComplete (c_exec T c'))] c'
      /\ handler_answers acts = [inl o] /\ ended_thread c' t /\ c_lock T c' = None
      /\ we_status (c_exec T c') = Failed
      /\ we_status_detail (c_exec T c') = failure_text name err cause
      /\ In s (we_states (c_exec T c')) /\ es_name s = name /\ es_status s = Failed
      /\ es_error s = Some (failure_text name err cause) /\ es_completed s = Some now.
  Proof. exact (output_failure_final render extract inject has_handler wait_time spec). Qed.

  (** Over every schedule: an execution of a workflow without input paths and
      templates, made of steps, parallel states and waits, does not end (other
      than by a crash) without announcing a completion. *)
  Theorem C19_completion_reported_partial : forall initial c,
    we_states initial = [] -> always_reports wait_time spec -> REACH initial c ->
    ended_thread c 0 -> completions (effects (c_log T c)) <> [].
  Proof. exact (completion_reported render extract inject has_handler wait_time spec). Qed.

  (** In general it is false.  Nothing is ever stored or announced when the start
      state does not exist ... *)
  Theorem C19_missing_start_state_refuted : forall initial c,
    we_states initial = [] -> lookup (ws_start_at spec) (ws_states spec) = None ->
    REACH initial c -> c_log T c = [].
  Proof. exact (missing_start render extract inject has_handler wait_time spec). Qed.

  (** ... or when its input path selects nothing and no rule catches that. *)
  Theorem C19_input_path_failure_refuted : forall initial cfg p m c,
    lookup (ws_start_at spec) (ws_states spec) = Some cfg ->
    sc_input_path cfg = Some p -> extract (we_input initial) p = inr m ->
    no_match (fun r => names_error "InvalidInputPath" (ct_match_errors r)) (sc_catch cfg) ->
    REACH initial c -> c_log T c = [] /\ c_exec T c = initial.
  Proof. exact (silent_input_path render extract inject has_handler wait_time spec). Qed.

  (** *** C20 *)

  (** The record of a started step shows the input the input path selects ... *)
  Theorem C20_recorded_input : forall initial c pre t n v post,
    we_states initial = [] -> REACH initial c ->
    c_log T c = pre ++ (t, FCall n v) :: post ->
    exists h p prev st cfg parent input,
      effects_of t pre = h ++ [FSave p true; FEvent (EvTransition prev st)]
      /\ es_name st = n /\ declared spec parent n cfg
      /\ through extract (sc_input_path cfg) input (es_input st)
      /\ payload_is render (sc_payload_template cfg) input v.
  Proof.
    intros initial c pre t n v post Hi R E.
    assert (I : inv render extract has_handler spec c) by (eapply inv_reachable; eauto).
    destruct (inv_log _ _ _ _ _ I _ _ _ _ E) as (h & p & prev & st & cfg & parent & input & A & B & C & D & _ & _ & F & G).
    exists h, p, prev, st, cfg, parent, input. apply (config_declared spec) in D. auto 10.
  Qed.

  (** ... but the handler is not given that: it gets the whole input. *)
  Theorem C20_handler_input_refuted : forall initial cfg w,
    lookup (ws_start_at spec) (ws_states spec) = Some cfg ->
    sc_type cfg = ExecuteStep -> has_handler (ws_start_at spec) = true ->
    sc_payload_template cfg = None -> through extract (sc_input_path cfg) (we_input initial) w ->
    exists acts c p st,
      DRIVE (sm_init T spec initial) 0 acts
        [FSave p true; FEvent (EvTransition None st); FCall (ws_start_at spec) (we_input initial)] c
      /\ es_input st = w.
  Proof. exact (raw_input render extract inject has_handler wait_time spec). Qed.

  (** *** C58 and C12 *)

  (** Every stored document and every completion shows the input and the start
      time the execution was created with; completions also its id. *)
  Theorem C58_identity_kept : forall initial c, we_states initial = [] -> REACH initial c ->
    same_identity (c_exec T c) initial
    /\ (forall t p ok, In (t, FSave p ok) (c_log T c) -> sp_input p = we_input initial /\ sp_started p = we_started initial)
    /\ (forall t e, In (t, FEvent (EvComplete e)) (c_log T c) -> same_identity e initial).
  Proof.
    intros initial c Hi R. destruct (identity render extract inject has_handler wait_time spec initial c Hi R) as [A B].
    split; [exact A|]. split.
    - intros t p ok H. exact (B t _ H).
    - intros t e H. exact (B t _ H).
  Qed.

  (** The announced completion of an execution created without output has none. *)
  Theorem C12_completion_output_refuted : forall initial c t e,
    we_states initial = [] -> we_output initial = None -> REACH initial c ->
    In (t, FEvent (EvComplete e)) (c_log T c) -> we_output e = None.
  Proof.
    intros initial c t e Hi Ho R H. destruct (C58_identity_kept initial c Hi R) as (_ & _ & C).
    destruct (C t e H) as (_ & _ & _ & E). congruence.
  Qed.

  (** *** C59 *)

  (** In every configuration some thread can advance, or all have ended. *)
  Theorem C59_no_deadlock : forall initial c, we_states initial = [] -> REACH initial c ->
    (exists a c', SM_STEP c a = Some c') \/
    (forall t th, nth_error (c_threads T c) t = Some th -> ended_thread c t \/ crashed_thread c t).
  Proof. exact (no_deadlock render extract inject has_handler wait_time spec). Qed.
End Props.

(** *** Concrete cases *)

(** Payloads are built by wrapping the input, paths are member names. *)
Definition ex_render (t : option string) (v : json) : json + render_error :=
  match t with Some k => inl (JObj [(k, v)]) | None => inr (RenderFunction "no such function") end.
Definition ex_extract (v : json) (p : string) : json + string :=
  match v with
  | JObj m => match lookup p m with Some w => inl w | None => inr "nothing found" end
  | _ => inr "nothing found"
  end.
Definition ex_inject (v : json) (p : string) (w : json) : json + string :=
  match v with JObj m => inl (JObj (m ++ [(p, w)])) | _ => inr "not an object" end.
Definition ex_wait (w : wait_config) (i : json) (now : Z) : N + (bool * option string * string) := inl 1%N.
Definition ex_handlers (n : string) : bool := true.

Definition ex_step (ip rp : option string) (tpl : option (option string)) (next : option string)
    (rs : option (list retry_config)) (cs : option (list catch_config)) : state_config (option string) :=
  mk_state_config ExecuteStep ip rp None tpl next (match next with None => Some true | _ => None end) None None rs cs.
Definition ex_retry : retry_config :=
  {| rt_match_errors := ["Timeout"]; rt_interval := None; rt_max_attempts := Some 1%Z; rt_max_delay := None;
     rt_jitter := None; rt_backoff_rate := None |}.
Definition ex_catch : catch_config := {| ct_match_errors := ["Denied"]; ct_next := "b"; ct_result_path := Some "why" |}.

(** a (input path, retries and catches) then b (template). *)
Definition ex_spec : workflow_spec (option string) :=
  {| ws_start_at := "a";
     ws_states := [("a", ex_step (Some "x") (Some "r") None (Some "b") (Some [ex_retry]) (Some [ex_catch]));
                   ("b", ex_step None None (Some (Some "in")) None None None)] |}.
Definition ex_input : json := JObj [("x", JStr "hello")].
Definition ex_initial (input : json) : wf_execution :=
  {| we_id := "e1"; we_input := input; we_output := None; we_started := 5%Z; we_completed := None;
     we_status := Preparing; we_status_detail := ""; we_current_state := None; we_states := [] |}.
Definition ex_act (a : answer) : action := {| a_thread := 0; a_now := 7%Z; a_answer := a |}.
Definition ex_run (spec : workflow_spec (option string)) (input : json) (l : list answer) :=
  sm_run _ ex_render ex_extract ex_inject ex_handlers ex_wait spec (sm_init _ spec (ex_initial input)) (map ex_act l).
Definition n_ : answer := ANothing.
Definition s_ : answer := ASaved None.
(** Up to the call of the first handler. *)
Definition to_call : list answer := [n_; n_; s_; n_; n_].

Ltac chosen := eexists; split; [vm_compute; reflexivity|].

Definition ex_v1 : json := JObj [("x", JStr "hello"); ("r", JBool true)].
Definition ex_outs : list (json * json) := [(JBool true, ex_v1); (JNull, JNull)].
Definition ex_calls : list (string * json) := [("a", ex_input); ("b", JObj [("in", ex_v1)])].
Example C13_nonvacuous :
  chain ex_render ex_extract ex_inject ex_handlers ex_spec "a" ex_input ex_outs ex_calls JNull /\
  exists c, ex_run ex_spec ex_input (to_call ++ [AHandler (inl (JBool true)); n_; n_; s_] ++ to_call
               ++ [AHandler (inl JNull); n_; n_; s_; n_; s_; n_]) = Some c
    /\ calls (effects (c_log _ c)) = ex_calls /\ length (completions (effects (c_log _ c))) = 1.
Proof.
  split.
  - eapply chain_next with (i := JStr "hello"); try reflexivity.
    eapply chain_end; reflexivity.
  - chosen. vm_compute. auto.
Qed.

(** A reachable configuration awaiting the handler of "a": the hypotheses of the
    theorems about failing handlers, retries, catches and outputs. *)
Example C15_C16_C19_nonvacuous : exists c, ex_run ex_spec ex_input to_call = Some c
  /\ awaiting c 0 "a" ex_input /\ c_lock _ c = None
  /\ (exists cfg, lookup "a" (ws_states ex_spec) = Some cfg
       /\ first_match (fun r => names_error (shown_error "Timeout") (rt_match_errors r)) [ex_retry] ex_retry
       /\ limit_allows ex_retry /\ sc_retry cfg = Some [ex_retry]
       /\ not_retried (shown_error "Denied") (sc_retry cfg)
       /\ first_match (fun r => names_error "Denied" (ct_match_errors r)) [ex_catch] ex_catch
       /\ sc_catch cfg = Some [ex_catch]
       /\ not_retried (shown_error "") (sc_retry cfg)
       /\ no_match (fun r => names_error "" (ct_match_errors r)) (sc_catch cfg)).
Proof.
  chosen. split; [do 3 eexists; split; reflexivity|]. split; [reflexivity|].
  eexists. split; [reflexivity|]. split; [exists [], []; (split; [reflexivity|]); (split; [right; now left|intros ? []])|].
  split; [cbn; lia|]. split; [reflexivity|].
  split. { left. intros rs r H Hin. inversion H; subst. destruct Hin as [<-|[]]. intros [[A|[]]|[A|[]]]; discriminate. }
  split; [exists [], []; (split; [reflexivity|]); (split; [right; now left|intros ? []])|]. split; [reflexivity|].
  split; [left|]; intros rs r H Hin; inversion H; subst; destruct Hin as [<-|[]]; intros [[A|[]]|[A|[]]]; discriminate.
Qed.

(** The same failure caught, retried, and final, computed. *)
Example C16_nonvacuous :
  (exists c, ex_run ex_spec ex_input (to_call ++ [AHandler (inr ("Denied", "no")); n_; n_; n_; s_; n_; n_; n_] ++ to_call) = Some c
    /\ calls (effects (c_log _ c)) =
       [("a", ex_input); ("b", JObj [("in", JObj [("x", JStr "hello");
          ("why", JObj [("cause", JStr "Execute step failed: no"); ("error", JStr "Denied")])])])])
  /\ (exists c, ex_run ex_spec ex_input (to_call ++ [AHandler (inr ("Timeout", "no")); n_; n_; n_; s_; n_; n_] ++ to_call) = Some c
    /\ calls (effects (c_log _ c)) = [("a", ex_input); ("a", ex_input)] /\ completions (effects (c_log _ c)) = []).
Proof. split; chosen; vm_compute; auto. Qed.

Example C14_nonvacuous : exists c, ex_run ex_spec ex_input
    (to_call ++ [AHandler (inr ("Other", "no")); n_; n_; n_; ASaved (Some "disk full"); n_; n_; n_]) = Some c
  /\ map we_status (completions (effects (c_log _ c))) = [Failed]
  /\ ended_thread c 0.
Proof. chosen. split; [reflexivity|]. do 2 eexists. reflexivity. Qed.

(** A parallel state of two branches, one of which has a state that does nothing. *)
Definition ex_pass : state_config (option string) :=
  mk_state_config Pass None None None None None (Some true) None None None None.
Definition ex_parallel (b2 : string * list (string * state_config (option string))) : workflow_spec (option string) :=
  {| ws_start_at := "p";
     ws_states := [("p", mk_state_config Parallel None None None None None (Some true) None
        (Some [("u", [("u", ex_pass)]); b2]) None None)] |}.
Definition ex_of (t : nat) (a : answer) : action := {| a_thread := t; a_now := 7%Z; a_answer := a |}.
Definition ex_run2 b2 acts :=
  sm_run _ ex_render ex_extract ex_inject ex_handlers ex_wait (ex_parallel b2)
    (sm_init _ (ex_parallel b2) (ex_initial ex_input)) acts.
Definition branch (t : nat) : list action := map (ex_of t) to_call.

(** Both deliver; the state goes on. *)
Example C18_nonvacuous :
  let b2 := ("v", [("v", ex_pass)]) in
  simple_branches (ex_parallel b2) /\
  exists c, ex_run2 b2 (map (ex_of 0) to_call ++ branch 1 ++ branch 2) = Some c
    /\ (exists cfg, joining c 0 [1; 2] "p" cfg ex_input) /\ c_lock _ c = None
    /\ Forall2 (delivers c) [1; 2] [JObj []; JObj []].
Proof.
  split.
  - intros p n cfg D. inversion D as [|? ? ? ? ? ? H H0 H1 H2 H3]; subst. cbn in H.
    match type of H with context [if ?x then _ else _] => destruct x; [|discriminate H] end. inversion H; subst; clear H.
    cbn in H1. inversion H1; subst. clear H1. destruct H2 as [<-|[<-|[]]]; cbn in H3;
      match type of H3 with context [if ?x then _ else _] => destruct x end; inversion H3; subst; cbn; split; discriminate.
  - chosen. split; [do 3 eexists; split; reflexivity|]. split; [reflexivity|].
    repeat constructor; eexists; reflexivity.
Qed.

(** The second branch's start state is missing: the branch, and the state, fail. *)
Example C18_failure_nonvacuous :
  let b2 := ("w", [("v", ex_pass)]) in
  exists c, ex_run2 b2 (map (ex_of 0) to_call ++ branch 1) = Some c
    /\ (exists cfg, joining c 0 [1; 2] "p" cfg ex_input) /\ c_lock _ c = None
    /\ Forall (fun k => ended_thread c k \/ crashed_thread c k) [1; 2] /\ branch_failed c 2.
Proof.
  cbn zeta. chosen. split; [do 3 eexists; split; reflexivity|]. split; [reflexivity|].
  split; [constructor; [|constructor; [|constructor]]; left; do 2 eexists; reflexivity|]. left. eexists. reflexivity.
Qed.

(** Workflows that always report exist, and their executions end. *)
Definition ex_plain : workflow_spec (option string) :=
  {| ws_start_at := "a"; ws_states := [("a", ex_step None None None None None None)] |}.
Example C19_nonvacuous :
  always_reports ex_wait ex_plain /\
  exists c, ex_run ex_plain ex_input (to_call ++ [AHandler (inl JNull); n_; n_; s_; n_; s_; n_]) = Some c
    /\ ended_thread c 0.
Proof.
  split.
  - intros p n cfg D. destruct D as [n cfg H|? ? ? ? ? ? H H0 H1 H2 H3]; cbn in H;
      match type of H with context [if ?x then _ else _] => destruct x end; inversion H; subst; cbn in *; try discriminate; auto.
  - chosen. do 2 eexists. reflexivity.
Qed.

(** If the final save fails the execution crashes: it stays in progress in the
    store and no completion is announced. *)
Theorem C19_failed_final_save_refuted : exists acts c,
  sm_run _ ex_render ex_extract ex_inject ex_handlers ex_wait ex_plain (sm_init _ ex_plain (ex_initial ex_input)) acts = Some c
  /\ crashed_thread c 0 /\ length (c_threads _ c) = 1
  /\ completions (effects (c_log _ c)) = [] /\ failures (effects (c_log _ c)) = []
  /\ exists p, stored (effects (c_log _ c)) p /\ sp_status p = InProgress.
Proof.
  exists (map ex_act (to_call ++ [AHandler (inl JNull); n_; n_; s_; n_; ASaved (Some "disk full"); n_; n_])).
  chosen. split; [eexists; reflexivity|]. split; [reflexivity|]. split; [reflexivity|]. split; [reflexivity|].
  eexists. split.
  - apply last_value_assigned. vm_compute. reflexivity.
  - reflexivity.
Qed.

(** A start state that does not exist; an input path that selects nothing; a
    template that fails under a rule that catches named errors. *)
Example C19_silent_nonvacuous :
  (exists c, ex_run {| ws_start_at := "z"; ws_states := ws_states ex_spec |} ex_input [n_; n_; n_] = Some c
     /\ crashed_thread c 0)
  /\ ex_extract (JObj []) "x" = inr "nothing found"
  /\ no_match (fun r => names_error "InvalidInputPath" (ct_match_errors r)) (Some [ex_catch])
  /\ exists c, ex_run ex_spec (JObj []) [n_; n_; n_] = Some c /\ ended_thread c 0.
Proof.
  split; [chosen; eexists; reflexivity|]. split; [reflexivity|]. split.
  - intros rs r H Hin. inversion H; subst. destruct Hin as [<-|[]]. intros [[A|[]]|[A|[]]]; discriminate.
  - chosen. do 2 eexists. reflexivity.
Qed.

Example C20_nonvacuous : exists c, ex_run ex_spec ex_input to_call = Some c
  /\ calls (effects (c_log _ c)) = [("a", ex_input)]
  /\ map es_input (we_states (c_exec _ c)) = [JStr "hello"] /\ ex_input <> JStr "hello".
Proof. chosen. repeat split; discriminate. Qed.

Example C58_C59_nonvacuous : exists c, ex_run ex_spec ex_input to_call = Some c
  /\ reachable ex_render ex_extract ex_inject ex_handlers ex_wait ex_spec (ex_initial ex_input) c
  /\ length (c_log _ c) = 3.
Proof. chosen. split; [exists (map ex_act to_call); vm_compute; reflexivity|reflexivity]. Qed.

Print Assumptions C13_sequential_order.
Print Assumptions C14_transition_saved_first.
Print Assumptions C14_call_announced_first.
Print Assumptions C14_completion_saved_first.
Print Assumptions C14_failure_saved_first_refuted.
Print Assumptions C15_retry_needs_rule.
Print Assumptions C15_retries_bounded_refuted.
Print Assumptions C16_first_retry_rule_applies.
Print Assumptions C16_first_catch_rule_applies.
Print Assumptions C16_template_error_caught_by_name_refuted.
Print Assumptions C18_all_branches_started.
Print Assumptions C18_waits_for_all.
Print Assumptions C18_results_in_branch_order.
Print Assumptions C18_branch_failure_fails_state.
Print Assumptions C18_branch_outputs_collected_refuted.
Print Assumptions C19_handler_failure_visible.
Print Assumptions C19_output_failure_visible.
Print Assumptions C19_completion_reported_partial.
Print Assumptions C19_missing_start_state_refuted.
Print Assumptions C19_input_path_failure_refuted.
Print Assumptions C20_recorded_input.
Print Assumptions C20_handler_input_refuted.
Print Assumptions C58_identity_kept.
Print Assumptions C12_completion_output_refuted.
Print Assumptions C59_no_deadlock.
Print Assumptions C19_failed_final_save_refuted.
