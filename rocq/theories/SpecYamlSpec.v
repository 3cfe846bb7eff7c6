(** Vocabulary for C112 to C115: what the spec of a resource written in YAML declares. *)
From Verif Require Import Base Chars SubstModel ResolveModel BlueprintModel WfYamlModel WfYamlSpec SpecYamlModel.
Local Open Scope list_scope.

(** The entries of a mapping whose key is a string and whose value is a mapping, a string *)
Definition named_maps (m : list (option text * yaml)) : list (text * list (option text * yaml)) :=
  flat_map (fun e => match e with (Some key, YMap m') => [(key, m')] | _ => [] end) m.
Definition named_texts (m : list (option text * yaml)) : list (text * text) :=
  flat_map (fun e => match e with (Some key, YStr t) => [(key, t)] | _ => [] end) m.
(** A text that is empty, or was left out *)
Definition is_empty (ps : list part) : Prop := ps = [] \/ ps = [Lit []].

(** A field that counts as left out when its value does not have the shape [ok] *)
Definition lenient {A} (m : list (option text * yaml)) (key : text) (ok : yaml -> Prop) (R : yaml -> A -> Prop) (o : option A) : Prop :=
  (exists v a, In (Some key, v) m /\ ok v /\ R v a /\ o = Some a) \/ ((forall v, In (Some key, v) m -> ~ ok v) /\ o = None).
Definition is_a_mapping (v : yaml) : Prop := exists m, v = YMap m.
Definition is_a_sequence (v : yaml) : Prop := exists l, v = YSeq l.
Definition is_text_or_mapping (v : yaml) : Prop := (exists t, v = YStr t) \/ is_a_mapping v.

Definition is_string (v : yaml) (t : text) : Prop := v = YStr t.
Definition is_plain_bool (v : yaml) (b : bool) : Prop := v = YBool b.
Definition is_seq {A} (R : yaml -> A -> Prop) (v : yaml) (r : list A) : Prop := exists l, v = YSeq l /\ Forall2 R l r.
(** The entries that are mappings, under their names; every entry, under its name *)
Definition are_named {A} (R : list (option text * yaml) -> A -> Prop) (m : list (option text * yaml)) (r : list (text * A)) : Prop :=
  Forall2 (fun a b => fst a = fst b /\ R (snd a) (snd b)) (named_maps m) r.
Definition is_strmap (k : classes) (m : list (option text * yaml)) (r : list (text * list part)) : Prop :=
  Forall2 (fun a b => fst a = fst b /\ is_text k (snd a) (snd b)) (entries_of m) r.
Definition are_labels (m : list (option text * yaml)) (r : list (text * text)) : Prop :=
  Forall2 (fun a b => fst a = fst b /\ snd a = YStr (snd b)) (entries_of m) r.
Definition is_selector (m : list (option text * yaml)) (r : list (text * text)) : Prop :=
  required m (chars "byLabel") (is_mapping (fun m' r => r = named_texts m')) r.
Definition is_guard_type (v : yaml) (ps : list part) : Prop := exists t, v = YStr t /\ In t [chars "jwt"; chars "custom"] /\ ps = [Lit t].
(** The names of the types of event sources *)
Definition event_names : list (text * event_type) :=
  [(chars "objectStorage", ObjectStorage); (chars "dbStream", DatabaseStream); (chars "dataStream", DataStream)].

Section Params.
Variable F : Type.
Variable parse_f64 : text -> option F.
Variable k : classes.

Inductive is_scalar : yaml -> scalar F -> Prop :=
| sl_int z : is_scalar (YInt z) (SInt F z)
| sl_real t f : parse_f64 t = Some f -> is_scalar (YReal t) (SFloat F f)
| sl_bool b : is_scalar (YBool b) (SBool F b)
| sl_str t : is_scalar (YStr t) (SStr F t).
Definition is_plain_protocol (v : yaml) (n : node F) : Prop :=
  exists t, v = YStr t /\ In t [chars "http"; chars "websocket"] /\ n = NScalar F (SStr F t).
(** A WebSocket configuration: the entries under the two keys it has *)
Definition is_websocket (m : list (option text * yaml)) (n : node F) : Prop :=
  exists r, n = NMap F r /\
    Forall2 (fun a b => fst a = fst b /\ exists ps, is_text k (snd a) ps /\ snd b = NSub F ps)
      (filter (fun e => text_eqb (fst e) (chars "routeKey") || text_eqb (fst e) (chars "authStrategy")) (entries_of m)) r.
Definition is_protocol (v : yaml) (n : node F) : Prop :=
  is_plain_protocol v n \/
  exists m w, v = YMap m /\ required m (chars "websocketConfig") (is_mapping is_websocket) w /\ n = NMap F [(chars "websocketConfig", w)].

Definition is_var (m : list (option text * yaml)) (x : var F) : Prop :=
  defaults m (chars "type") is_string [] (va_type F x) /\
  lenient m (chars "allowedValues") is_a_sequence (is_seq is_scalar) (va_allowed F x) /\
  optional m (chars "default") is_scalar (va_default F x) /\
  optional m (chars "description") is_string (va_description F x) /\
  optional m (chars "secret") is_plain_bool (va_secret F x) /\
  va_type F x <> [].
Definition are_vars (m : list (option text * yaml)) (r : list (text * var F)) : Prop := are_named is_var m r.
Definition is_shared (m : list (option text * yaml)) (x : shared F) : Prop :=
  optional m (chars "codeLocation") (is_text k) (hc_location F x) /\
  optional m (chars "runtime") (is_text k) (hc_runtime F x) /\
  optional m (chars "memory") (is_int F k) (hc_memory F x) /\
  optional m (chars "timeout") (is_int F k) (hc_timeout F x) /\
  optional m (chars "tracingEnabled") (is_bool F k) (hc_tracing F x) /\
  optional m (chars "environmentVariables") (is_mapping (is_strmap k)) (hc_env F x).
Definition is_handler (m : list (option text * yaml)) (x : handler F) : Prop :=
  optional m (chars "handlerName") (is_text k) (ha_name F x) /\
  optional m (chars "codeLocation") (is_text k) (ha_location F x) /\
  defaults m (chars "handler") (is_text k) [] (ha_handler F x) /\
  optional m (chars "runtime") (is_text k) (ha_runtime F x) /\
  optional m (chars "memory") (is_int F k) (ha_memory F x) /\
  optional m (chars "timeout") (is_int F k) (ha_timeout F x) /\
  optional m (chars "tracingEnabled") (is_bool F k) (ha_tracing F x) /\
  optional m (chars "environmentVariables") (is_mapping (is_strmap k)) (ha_env F x).
Definition is_options (m : list (option text * yaml)) (x : options F) : Prop :=
  optional m (chars "batchSize") (is_int F k) (so_batch F x) /\
  optional m (chars "partialFailures") (is_bool F k) (so_partial F x) /\
  optional m (chars "startFromBeginning") (is_bool F k) (so_beginning F x).
Definition is_storage (m : list (option text * yaml)) (s : storage) : Prop :=
  required m (chars "bucket") (is_text k) (os_bucket s) /\ defaults m (chars "events") (is_texts k) [] (os_events s).
Definition is_stream (id : text) (m : list (option text * yaml)) (s : stream F) : Prop :=
  required m id (is_text k) (st_id F s) /\ is_options m (st_options F s).
(** The configuration of a source has the shape its type asks for. *)
Definition is_event (m : list (option text * yaml)) (e : event F) : Prop :=
  required m (chars "sourceType") (fun v ty => exists t, v = YStr t /\ In (t, ty) event_names) (fst e) /\
  required m (chars "sourceConfiguration") (is_mapping (fun c s =>
    match fst e with
    | ObjectStorage => exists x, is_storage c x /\ s = FromStorage F x
    | DatabaseStream => exists x, is_stream (chars "dbStreamId") c x /\ s = FromDatabase F x
    | DataStream => exists x, is_stream (chars "dataStreamId") c x /\ s = FromData F x
    end)) (snd e).
Definition is_consumer (m : list (option text * yaml)) (x : consumer F) : Prop :=
  optional m (chars "sourceId") (is_text k) (co_source F x) /\
  optional m (chars "batchSize") (is_int F k) (co_batch F x) /\
  optional m (chars "visibilityTimeout") (is_int F k) (co_visibility F x) /\
  optional m (chars "waitTimeSeconds") (is_int F k) (co_wait F x) /\
  optional m (chars "partialFailures") (is_bool F k) (co_partial F x) /\
  optional m (chars "routingKey") (is_text k) (co_routing F x) /\
  optional m (chars "externalEvents") (is_mapping (are_named is_event)) (co_events F x).
Definition is_cors (m : list (option text * yaml)) (x : cors F) : Prop :=
  optional m (chars "allowCredentials") (is_bool F k) (cr_credentials F x) /\
  optional m (chars "allowOrigins") (is_texts k) (cr_origins F x) /\
  optional m (chars "allowMethods") (is_texts k) (cr_methods F x) /\
  optional m (chars "allowHeaders") (is_texts k) (cr_headers F x) /\
  optional m (chars "exposeHeaders") (is_texts k) (cr_expose F x) /\
  optional m (chars "maxAge") (is_int F k) (cr_age F x).
Definition is_cors_choice (v : yaml) (c : cors_choice F) : Prop :=
  (exists ps, is_text k v ps /\ c = CorsText F ps) \/ (exists m x, v = YMap m /\ is_cors m x /\ c = CorsConfig F x).
Definition is_base (m : list (option text * yaml)) (x : base F) : Prop :=
  defaults m (chars "protocol") is_plain_protocol (NNull F) (bp_protocol F x) /\
  defaults m (chars "basePath") (is_text k) [] (bp_path F x).
Definition is_base_path (v : yaml) (b : base_path F) : Prop :=
  (exists ps, is_text k v ps /\ b = BaseText F ps) \/ (exists m x, v = YMap m /\ is_base m x /\ b = BaseConfig F x).
Definition is_domain (m : list (option text * yaml)) (x : domain F) : Prop :=
  defaults m (chars "domainName") (is_text k) [] (dm_name F x) /\
  defaults m (chars "basePaths") (is_seq is_base_path) [] (dm_paths F x) /\
  optional m (chars "normalizeBasePath") (is_bool F k) (dm_normalize F x) /\
  defaults m (chars "certificateId") (is_text k) [] (dm_certificate F x) /\
  optional m (chars "securityPolicy") (is_text k) (dm_policy F x) /\
  ~ is_empty (dm_name F x) /\ dm_paths F x <> [] /\ ~ is_empty (dm_certificate F x).
Definition is_source (m : list (option text * yaml)) (x : source F) : Prop :=
  defaults m (chars "protocol") is_plain_protocol (NNull F) (vs_protocol F x) /\
  defaults m (chars "source") (is_text k) [] (vs_source F x).
Definition is_value_source (v : yaml) (b : value_source F) : Prop :=
  (exists ps, is_text k v ps /\ b = SourceText F ps) \/ (exists m x, v = YMap m /\ is_source m x /\ b = SourceConfig F x).
Definition is_guard (m : list (option text * yaml)) (x : guard F) : Prop :=
  defaults m (chars "type") is_guard_type [] (gd_type F x) /\
  optional m (chars "issuer") (is_text k) (gd_issuer F x) /\
  optional m (chars "tokenSource") is_value_source (gd_token F x) /\
  optional m (chars "audience") (is_texts k) (gd_audience F x) /\
  ~ is_empty (gd_type F x).
Definition is_auth (m : list (option text * yaml)) (a : auth F) : Prop :=
  required m (chars "guards") (is_mapping (are_named is_guard)) (au_guards F a) /\
  optional m (chars "defaultGuard") (is_text k) (au_default F a).
Definition is_api (m : list (option text * yaml)) (x : api F) : Prop :=
  defaults m (chars "protocols") (is_seq is_protocol) [] (ap_protocols F x) /\
  lenient m (chars "cors") is_text_or_mapping is_cors_choice (ap_cors F x) /\
  optional m (chars "domain") (is_mapping is_domain) (ap_domain F x) /\
  optional m (chars "auth") (is_mapping is_auth) (ap_auth F x) /\
  optional m (chars "tracingEnabled") (is_bool F k) (ap_tracing F x) /\
  ap_protocols F x <> [].
Definition is_config (m : list (option text * yaml)) (x : config) : Prop :=
  optional m (chars "name") (is_text k) (cf_name x) /\
  optional m (chars "plaintext") (is_texts k) (cf_plaintext x).
Definition is_bucket (m : list (option text * yaml)) (x : bucket) : Prop :=
  optional m (chars "name") (is_text k) (bk_name x).
Definition is_topic (m : list (option text * yaml)) (x : topic F) : Prop :=
  optional m (chars "name") (is_text k) (tp_name F x) /\
  defaults m (chars "fifo") (fun v o => exists a, is_bool F k v a /\ o = Some a) (Some (NScalar F (SBool F false))) (tp_fifo F x).
Definition is_queue (m : list (option text * yaml)) (x : queue F) : Prop :=
  optional m (chars "name") (is_text k) (qu_name F x) /\
  defaults m (chars "fifo") (fun v o => exists a, is_bool F k v a /\ o = Some a) (Some (NScalar F (SBool F false))) (qu_fifo F x) /\
  optional m (chars "visibilityTimeout") (is_int F k) (qu_visibility F x).
Definition is_metadata (m : list (option text * yaml)) (x : metadata F) : Prop :=
  defaults m (chars "displayName") (is_text k) [] (me_name F x) /\
  lenient m (chars "annotations") is_a_mapping (is_mapping (is_payload F parse_f64 k)) (me_annotations F x) /\
  lenient m (chars "labels") is_a_mapping (is_mapping are_labels) (me_labels F x) /\
  ~ is_empty (me_name F x).
Definition is_blueprint_metadata (m : list (option text * yaml)) (o : option (shared F)) : Prop :=
  lenient m (chars "sharedHandlerConfig") is_a_mapping (is_mapping is_shared) o.
(** The spec of a resource of each type *)
Definition is_spec (ty : rtype) (m : list (option text * yaml)) (s : spec F) : Prop :=
  match ty with
  | THandler => exists x, is_handler m x /\ s = PHandler F x
  | TApi => exists x, is_api m x /\ s = PApi F x
  | TConsumer => exists x, is_consumer m x /\ s = PConsumer F x
  | TSchedule => exists x, required m (chars "schedule") (is_text k) x /\ s = PSchedule F x
  | THandlerConfig => exists x, is_shared m x /\ s = PShared F x
  | TWorkflow => exists x, is_workflow F parse_f64 k m x /\ s = PWorkflow F x
  | TConfig => exists x, is_config m x /\ s = PConfig F x
  | TBucket => exists x, is_bucket m x /\ s = PBucket F x
  | TTopic => exists x, is_topic m x /\ s = PTopic F x
  | TQueue => exists x, is_queue m x /\ s = PQueue F x
  end.
End Params.

(** The fields of each kind of spec, as the format documents them *)
Definition spec_fields (ty : rtype) : list text :=
  map chars (match ty with
  | THandler => ["handlerName"; "codeLocation"; "handler"; "runtime"; "memory"; "timeout"; "tracingEnabled"; "environmentVariables"]
  | TApi => ["protocols"; "cors"; "domain"; "auth"; "tracingEnabled"]
  | TConsumer => ["sourceId"; "batchSize"; "visibilityTimeout"; "waitTimeSeconds"; "partialFailures"; "routingKey"; "externalEvents"]
  | TSchedule => ["schedule"]
  | THandlerConfig => ["codeLocation"; "runtime"; "memory"; "timeout"; "tracingEnabled"; "environmentVariables"]
  | TWorkflow => ["startAt"; "states"]
  | TConfig => ["name"; "plaintext"]
  | TBucket => ["name"]
  | TTopic => ["name"; "fifo"]
  | TQueue => ["name"; "fifo"; "visibilityTimeout"]
  end)%string.
(** The fields of a spec that hold a whole number or a truth value *)
Definition number_fields : list (rtype * text) :=
  [(THandler, chars "memory"); (THandler, chars "timeout"); (THandler, chars "tracingEnabled");
   (THandlerConfig, chars "memory"); (THandlerConfig, chars "timeout"); (THandlerConfig, chars "tracingEnabled");
   (TConsumer, chars "batchSize"); (TConsumer, chars "visibilityTimeout"); (TConsumer, chars "waitTimeSeconds"); (TConsumer, chars "partialFailures");
   (TApi, chars "tracingEnabled"); (TTopic, chars "fifo"); (TQueue, chars "fifo"); (TQueue, chars "visibilityTimeout")].
