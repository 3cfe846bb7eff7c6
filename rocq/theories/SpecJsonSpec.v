(** Vocabulary for C123 to C127: what the spec of a resource written in JSON declares. *)
From Verif Require Import Base Chars SubstModel ResolveModel BlueprintModel WfYamlModel WfYamlSpec SpecYamlModel SpecYamlSpec.
Local Open Scope list_scope.

(** [occurs_once key m]: the key is there at most once *)
Definition occurs_once (key : text) (m : list (option text * yaml)) : Prop :=
  forall pre v post, m = pre ++ (Some key, v) :: post -> ~ In key (keys_of (pre ++ post)).
(** A value that can be a struct with these fields: an object in which each of them is at most once
    (other members are allowed), or an array with one value for each of them *)
Definition is_struct (names : list text) (v : yaml) : Prop :=
  (exists m, v = YMap m /\ forall key, In key names -> occurs_once key m) \/
  (exists l, v = YSeq l /\ length l = length names).
(** [has names v key w]: the field [key] of [v] is [w] *)
Definition has (names : list text) (v : yaml) (key : text) (w : yaml) : Prop :=
  (exists m, v = YMap m /\ In (Some key, w) m) \/ (exists l, v = YSeq l /\ In (key, w) (combine names l)).
(** A field that has to be there, and one that may be left out or null *)
Definition field_req {A} (names : list text) (v : yaml) (key : text) (R : yaml -> A -> Prop) (a : A) : Prop :=
  exists w, has names v key w /\ R w a.
Definition field_opt {A} (names : list text) (v : yaml) (key : text) (R : yaml -> A -> Prop) (o : option A) : Prop :=
  (exists w a, has names v key w /\ w <> YNull /\ R w a /\ o = Some a) \/ ((forall w, has names v key w -> w = YNull) /\ o = None).
(** Of several entries with the same key, the last one *)
Fixpoint last_ones {A} (l : list (text * A)) : list (text * A) :=
  match l with
  | [] => []
  | e :: l' => if existsb (fun e' => text_eqb (fst e') (fst e)) l' then last_ones l' else e :: last_ones l'
  end.
(** An object whose members are all of one kind, an array, a string, a truth value *)
Definition is_object {A} (R : yaml -> A -> Prop) (v : yaml) (r : list (text * A)) : Prop :=
  exists m all, v = YMap m /\ Forall2 (fun a b => fst a = Some (fst b) /\ R (snd a) (snd b)) m all /\ r = last_ones all.
Definition is_array {A} (R : yaml -> A -> Prop) (v : yaml) (r : list A) : Prop := exists l, v = YSeq l /\ Forall2 R l r.

Section Params.
Variable F : Type.
Variable parse_f64 : text -> option F.
Variable k : classes.
Variable json_text : text -> option text.
Variable of_int : Z -> F.

(** A text in a free-form value is taken as it is, unless it is itself a JSON string that can be
    read as a text with references. *)
Inductive text_node : text -> node F -> Prop :=
| tn_plain t : (forall u ps, json_text t = Some u -> parse_substitutions k u <> Ok ps) -> text_node t (NScalar F (SStr F t))
| tn_quoted t u ps : json_text t = Some u -> parse_substitutions k u = Ok ps -> text_node t (NSub F ps).
(** A whole number wraps around at 2^63. *)
Definition wraps (z : Z) : Z := if (z <? 2 ^ 63)%Z then z else (z - 2 ^ 64)%Z.
(** A free-form value; there is no null. *)
Inductive is_value : yaml -> node F -> Prop :=
| vl_int z : is_value (YInt z) (NScalar F (SInt F (wraps z)))
| vl_bool b : is_value (YBool b) (NScalar F (SBool F b))
| vl_real t f : parse_f64 t = Some f -> is_value (YReal t) (NScalar F (SFloat F f))
| vl_text t n : text_node t n -> is_value (YStr t) n
| vl_seq l r : Forall2 is_value l r -> is_value (YSeq l) (NSeq F r)
| vl_map m all : Forall2 (fun a b => fst a = Some (fst b) /\ is_value (snd a) (snd b)) m all -> is_value (YMap m) (NMap F (last_ones all)).
(** A value of a variable: a whole number that does not fit in 64 bits is a float. *)
Inductive is_scalar_value : yaml -> scalar F -> Prop :=
| sv_int z : (- 2 ^ 63 <= z < 2 ^ 63)%Z -> is_scalar_value (YInt z) (SInt F z)
| sv_large z : ~ (- 2 ^ 63 <= z < 2 ^ 63)%Z -> is_scalar_value (YInt z) (SFloat F (of_int z))
| sv_real t f : parse_f64 t = Some f -> is_scalar_value (YReal t) (SFloat F f)
| sv_bool b : is_scalar_value (YBool b) (SBool F b)
| sv_str t : is_scalar_value (YStr t) (SStr F t).

Definition json_var (v : yaml) (x : var F) : Prop :=
  let n := map chars ["type"; "allowedValues"; "default"; "secret"; "description"]%string in
  is_struct n v /\
  field_req n v (chars "type") is_string (va_type F x) /\
  field_opt n v (chars "allowedValues") (is_array is_scalar_value) (va_allowed F x) /\
  field_opt n v (chars "default") is_scalar_value (va_default F x) /\
  field_opt n v (chars "secret") is_plain_bool (va_secret F x) /\
  field_opt n v (chars "description") is_string (va_description F x).
Definition json_shared (v : yaml) (x : shared F) : Prop :=
  let n := spec_fields THandlerConfig in
  is_struct n v /\
  field_opt n v (chars "codeLocation") (is_text k) (hc_location F x) /\
  field_opt n v (chars "runtime") (is_text k) (hc_runtime F x) /\
  field_opt n v (chars "memory") is_value (hc_memory F x) /\
  field_opt n v (chars "timeout") is_value (hc_timeout F x) /\
  field_opt n v (chars "tracingEnabled") is_value (hc_tracing F x) /\
  field_opt n v (chars "environmentVariables") (is_object (is_text k)) (hc_env F x).
Definition json_handler (v : yaml) (x : handler F) : Prop :=
  let n := spec_fields THandler in
  is_struct n v /\
  field_opt n v (chars "handlerName") (is_text k) (ha_name F x) /\
  field_opt n v (chars "codeLocation") (is_text k) (ha_location F x) /\
  field_req n v (chars "handler") (is_text k) (ha_handler F x) /\
  field_opt n v (chars "runtime") (is_text k) (ha_runtime F x) /\
  field_opt n v (chars "memory") is_value (ha_memory F x) /\
  field_opt n v (chars "timeout") is_value (ha_timeout F x) /\
  field_opt n v (chars "tracingEnabled") is_value (ha_tracing F x) /\
  field_opt n v (chars "environmentVariables") (is_object (is_text k)) (ha_env F x).
Definition json_schedule (v : yaml) (x : list part) : Prop :=
  let n := spec_fields TSchedule in is_struct n v /\ field_req n v (chars "schedule") (is_text k) x.

Definition json_event_type (v : yaml) (ty : event_type) : Prop :=
  exists t, In (t, ty) event_names /\ (v = YStr t \/ v = YMap [(Some t, YNull)]).
Definition json_storage (v : yaml) (s : storage) : Prop :=
  let n := map chars ["bucket"; "events"]%string in
  is_struct n v /\
  field_req n v (chars "bucket") (is_text k) (os_bucket s) /\
  field_req n v (chars "events") (is_array (is_text k)) (os_events s).
Definition json_stream (id : text) (v : yaml) (s : stream F) : Prop :=
  let n := [chars "batchSize"; id; chars "partialFailures"; chars "startFromBeginning"] in
  is_struct n v /\
  field_req n v id (is_text k) (st_id F s) /\
  field_opt n v (chars "batchSize") is_value (so_batch F (st_options F s)) /\
  field_opt n v (chars "partialFailures") is_value (so_partial F (st_options F s)) /\
  field_opt n v (chars "startFromBeginning") is_value (so_beginning F (st_options F s)).
(** The configuration of a source: object storage if it can be that, else a database stream if it
    can be that, else a data stream; the type of the source plays no part. *)
Inductive json_event_source : yaml -> event_source F -> Prop :=
| es_storage v s : json_storage v s -> json_event_source v (FromStorage F s)
| es_database v s : (forall x, ~ json_storage v x) -> json_stream (chars "dbStreamId") v s -> json_event_source v (FromDatabase F s)
| es_data v s : (forall x, ~ json_storage v x) -> (forall x, ~ json_stream (chars "dbStreamId") v x) ->
    json_stream (chars "dataStreamId") v s -> json_event_source v (FromData F s).
Definition json_event (v : yaml) (e : event F) : Prop :=
  let n := map chars ["sourceType"; "sourceConfiguration"]%string in
  is_struct n v /\
  field_req n v (chars "sourceType") json_event_type (fst e) /\
  field_req n v (chars "sourceConfiguration") json_event_source (snd e).
Definition json_consumer (v : yaml) (x : consumer F) : Prop :=
  let n := spec_fields TConsumer in
  is_struct n v /\
  field_opt n v (chars "sourceId") (is_text k) (co_source F x) /\
  field_opt n v (chars "batchSize") is_value (co_batch F x) /\
  field_opt n v (chars "visibilityTimeout") is_value (co_visibility F x) /\
  field_opt n v (chars "waitTimeSeconds") is_value (co_wait F x) /\
  field_opt n v (chars "partialFailures") is_value (co_partial F x) /\
  field_opt n v (chars "routingKey") (is_text k) (co_routing F x) /\
  field_opt n v (chars "externalEvents") (is_object json_event) (co_events F x).

Definition json_cors (v : yaml) (x : cors F) : Prop :=
  let n := map chars ["allowCredentials"; "allowOrigins"; "allowMethods"; "allowHeaders"; "exposeHeaders"; "maxAge"]%string in
  is_struct n v /\
  field_opt n v (chars "allowCredentials") is_value (cr_credentials F x) /\
  field_opt n v (chars "allowOrigins") (is_array (is_text k)) (cr_origins F x) /\
  field_opt n v (chars "allowMethods") (is_array (is_text k)) (cr_methods F x) /\
  field_opt n v (chars "allowHeaders") (is_array (is_text k)) (cr_headers F x) /\
  field_opt n v (chars "exposeHeaders") (is_array (is_text k)) (cr_expose F x) /\
  field_opt n v (chars "maxAge") is_value (cr_age F x).
Definition json_cors_choice (v : yaml) (c : cors_choice F) : Prop :=
  (exists ps, is_text k v ps /\ c = CorsText F ps) \/ (exists x, json_cors v x /\ c = CorsConfig F x).
Definition json_base (v : yaml) (x : base F) : Prop :=
  let n := map chars ["protocol"; "basePath"]%string in
  is_struct n v /\
  field_req n v (chars "protocol") is_value (bp_protocol F x) /\
  field_req n v (chars "basePath") (is_text k) (bp_path F x).
Definition json_base_path (v : yaml) (b : base_path F) : Prop :=
  (exists ps, is_text k v ps /\ b = BaseText F ps) \/ (exists x, json_base v x /\ b = BaseConfig F x).
Definition json_domain (v : yaml) (x : domain F) : Prop :=
  let n := map chars ["domainName"; "basePaths"; "normalizeBasePath"; "certificateId"; "securityPolicy"]%string in
  is_struct n v /\
  field_req n v (chars "domainName") (is_text k) (dm_name F x) /\
  field_req n v (chars "basePaths") (is_array json_base_path) (dm_paths F x) /\
  field_opt n v (chars "normalizeBasePath") is_value (dm_normalize F x) /\
  field_req n v (chars "certificateId") (is_text k) (dm_certificate F x) /\
  field_opt n v (chars "securityPolicy") (is_text k) (dm_policy F x).
Definition json_source (v : yaml) (x : source F) : Prop :=
  let n := map chars ["protocol"; "source"]%string in
  is_struct n v /\
  field_req n v (chars "protocol") is_value (vs_protocol F x) /\
  field_req n v (chars "source") (is_text k) (vs_source F x).
Definition json_value_source (v : yaml) (b : value_source F) : Prop :=
  (exists ps, is_text k v ps /\ b = SourceText F ps) \/ (exists x, json_source v x /\ b = SourceConfig F x).
Definition json_guard (v : yaml) (x : guard F) : Prop :=
  let n := map chars ["type"; "issuer"; "tokenSource"; "audience"]%string in
  is_struct n v /\
  field_req n v (chars "type") (is_text k) (gd_type F x) /\
  field_opt n v (chars "issuer") (is_text k) (gd_issuer F x) /\
  field_opt n v (chars "tokenSource") json_value_source (gd_token F x) /\
  field_opt n v (chars "audience") (is_array (is_text k)) (gd_audience F x).
Definition json_auth (v : yaml) (a : auth F) : Prop :=
  let n := map chars ["defaultGuard"; "guards"]%string in
  is_struct n v /\
  field_opt n v (chars "defaultGuard") (is_text k) (au_default F a) /\
  field_req n v (chars "guards") (is_object json_guard) (au_guards F a).
Definition json_api (v : yaml) (x : api F) : Prop :=
  let n := spec_fields TApi in
  is_struct n v /\
  field_req n v (chars "protocols") (is_array is_value) (ap_protocols F x) /\
  field_opt n v (chars "cors") json_cors_choice (ap_cors F x) /\
  field_opt n v (chars "domain") json_domain (ap_domain F x) /\
  field_opt n v (chars "auth") json_auth (ap_auth F x) /\
  field_opt n v (chars "tracingEnabled") is_value (ap_tracing F x).

Definition json_condition (v : yaml) (c : scond F) : Prop :=
  let n := map chars ["inputs"; "function"]%string in
  is_struct n v /\
  field_req n v (chars "inputs") (is_array is_value) (sc_inputs F c) /\
  field_req n v (chars "function") (is_text k) (sc_function F c).
Definition json_rule (v : yaml) (r : srule F) : Prop :=
  let n := map chars ["and"; "or"; "not"; "condition"; "next"]%string in
  is_struct n v /\
  field_opt n v (chars "and") (is_array json_condition) (su_and F r) /\
  field_opt n v (chars "or") (is_array json_condition) (su_or F r) /\
  field_opt n v (chars "not") json_condition (su_not F r) /\
  field_opt n v (chars "condition") json_condition (su_condition F r) /\
  field_req n v (chars "next") (is_text k) (su_next F r).
Definition json_wait (v : yaml) (w : swait) : Prop :=
  let n := map chars ["seconds"; "timestamp"]%string in
  is_struct n v /\
  field_opt n v (chars "seconds") (is_text k) (sw_seconds w) /\
  field_opt n v (chars "timestamp") (is_text k) (sw_timestamp w).
Definition json_failure (v : yaml) (w : sfail) : Prop :=
  let n := map chars ["error"; "cause"]%string in
  is_struct n v /\
  field_opt n v (chars "error") (is_text k) (sf_error w) /\
  field_opt n v (chars "cause") (is_text k) (sf_cause w).
Definition json_retry (v : yaml) (r : sretry F) : Prop :=
  let n := map chars ["matchErrors"; "interval"; "maxAttempts"; "maxDelay"; "jitter"; "backoffRate"]%string in
  is_struct n v /\
  field_req n v (chars "matchErrors") (is_array (is_text k)) (sy_match F r) /\
  field_opt n v (chars "interval") is_value (sy_interval F r) /\
  field_opt n v (chars "maxAttempts") is_value (sy_attempts F r) /\
  field_opt n v (chars "maxDelay") is_value (sy_delay F r) /\
  field_opt n v (chars "jitter") is_value (sy_jitter F r) /\
  field_opt n v (chars "backoffRate") is_value (sy_backoff F r).
Definition json_catch (v : yaml) (c : scatch) : Prop :=
  let n := map chars ["matchErrors"; "next"; "resultPath"]%string in
  is_struct n v /\
  field_req n v (chars "matchErrors") (is_array (is_text k)) (sh_match c) /\
  field_req n v (chars "next") (is_text k) (sh_next c) /\
  field_opt n v (chars "resultPath") (is_text k) (sh_path c).
(** A state machine: a workflow, or a parallel branch *)
Definition json_machine (R : yaml -> sstate F -> Prop) (v : yaml) (b : smachine F) : Prop :=
  let n := spec_fields TWorkflow in
  is_struct n v /\
  field_req n v (chars "startAt") (is_text k) (fst b) /\
  field_req n v (chars "states") (is_object R) (snd b).
(** A state, with the states of its parallel branches *)
Inductive json_state : yaml -> sstate F -> Prop :=
| js_intro v s :
    is_struct state_keys v ->
    field_req state_keys v (chars "type") (is_text k) (ss_type F s) ->
    field_opt state_keys v (chars "description") (is_text k) (ss_description F s) ->
    field_opt state_keys v (chars "inputPath") (is_text k) (ss_input F s) ->
    field_opt state_keys v (chars "resultPath") (is_text k) (ss_result_path F s) ->
    field_opt state_keys v (chars "outputPath") (is_text k) (ss_output F s) ->
    field_opt state_keys v (chars "payloadTemplate") (is_object is_value) (ss_payload F s) ->
    field_opt state_keys v (chars "next") (is_text k) (ss_next F s) ->
    field_opt state_keys v (chars "end") is_value (ss_end F s) ->
    field_opt state_keys v (chars "decisions") (is_array json_rule) (ss_decisions F s) ->
    field_opt state_keys v (chars "result") is_value (ss_result F s) ->
    field_opt state_keys v (chars "timeout") is_value (ss_timeout F s) ->
    field_opt state_keys v (chars "waitConfig") json_wait (ss_wait F s) ->
    field_opt state_keys v (chars "failureConfig") json_failure (ss_failure F s) ->
    field_opt state_keys v (chars "parallelBranches") (is_array (json_machine json_state)) (ss_branches F s) ->
    field_opt state_keys v (chars "retry") (is_array json_retry) (ss_retry F s) ->
    field_opt state_keys v (chars "catch") (is_array json_catch) (ss_catch F s) ->
    json_state v s.
Definition json_workflow (v : yaml) (w : smachine F) : Prop := json_machine json_state v w.

Definition json_config (v : yaml) (x : config) : Prop :=
  let n := spec_fields TConfig in
  is_struct n v /\
  field_opt n v (chars "name") (is_text k) (cf_name x) /\
  field_opt n v (chars "plaintext") (is_array (is_text k)) (cf_plaintext x).
Definition json_bucket (v : yaml) (x : bucket) : Prop :=
  let n := spec_fields TBucket in is_struct n v /\ field_opt n v (chars "name") (is_text k) (bk_name x).
Definition json_topic (v : yaml) (x : topic F) : Prop :=
  let n := spec_fields TTopic in
  is_struct n v /\
  field_opt n v (chars "name") (is_text k) (tp_name F x) /\
  field_opt n v (chars "fifo") is_value (tp_fifo F x).
Definition json_queue (v : yaml) (x : queue F) : Prop :=
  let n := spec_fields TQueue in
  is_struct n v /\
  field_opt n v (chars "name") (is_text k) (qu_name F x) /\
  field_opt n v (chars "fifo") is_value (qu_fifo F x) /\
  field_opt n v (chars "visibilityTimeout") is_value (qu_visibility F x).
Definition json_metadata (v : yaml) (x : metadata F) : Prop :=
  let n := map chars ["displayName"; "annotations"; "labels"]%string in
  is_struct n v /\
  field_req n v (chars "displayName") (is_text k) (me_name F x) /\
  field_opt n v (chars "annotations") (is_object is_value) (me_annotations F x) /\
  field_opt n v (chars "labels") (is_object is_string) (me_labels F x).
Definition json_selector (v : yaml) (r : list (text * text)) : Prop :=
  let n := map chars ["byLabel"]%string in is_struct n v /\ field_req n v (chars "byLabel") (is_object is_string) r.
Definition json_blueprint_metadata (v : yaml) (o : option (shared F)) : Prop :=
  let n := map chars ["sharedHandlerConfig"]%string in is_struct n v /\ field_opt n v (chars "sharedHandlerConfig") json_shared o.
(** The spec of a resource of each type *)
Definition json_spec (ty : rtype) (v : yaml) (s : spec F) : Prop :=
  match ty with
  | THandler => exists x, json_handler v x /\ s = PHandler F x
  | TApi => exists x, json_api v x /\ s = PApi F x
  | TConsumer => exists x, json_consumer v x /\ s = PConsumer F x
  | TSchedule => exists x, json_schedule v x /\ s = PSchedule F x
  | THandlerConfig => exists x, json_shared v x /\ s = PShared F x
  | TWorkflow => exists x, json_workflow v x /\ s = PWorkflow F x
  | TConfig => exists x, json_config v x /\ s = PConfig F x
  | TBucket => exists x, json_bucket v x /\ s = PBucket F x
  | TTopic => exists x, json_topic v x /\ s = PTopic F x
  | TQueue => exists x, json_queue v x /\ s = PQueue F x
  end.
End Params.
