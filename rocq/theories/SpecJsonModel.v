(** Reading the specs of resources, their metadata and link selectors, and variables from JSON:
    the [Deserialize] instances of libs/runtime/blueprint-config-parser/src/blueprint_with_subs.rs
    and blueprint.rs, most of them derived, run by serde_json.

    A struct is read here field by field in the order of its declaration, where the derived code
    goes through the members of the document: which of several errors is reported is not modelled.
    The nesting limit of serde_json (128) is left out. *)
From Verif Require Import Base Chars SubstModel ResolveModel BlueprintModel WfYamlModel SpecYamlModel.
Local Open Scope list_scope.

(** * Derived [Deserialize]. blueprint_with_subs.rs 12-495 *)
Definition count_key (key : text) (m : list (option text * yaml)) : nat :=
  length (filter (fun e => match fst e with Some key' => text_eqb key' key | None => false end) m).
(** A struct is read from an object, in which a field may occur once, or from an array that has
    its fields in the order of their declaration ([visit_map] and [visit_seq] of the derived
    visitor; neither has a default for a missing element). blueprint_with_subs.rs 12-495. *)
Definition members (names : list text) (v : yaml) : bool :=
  match v with
  | YMap m => forallb (fun key => Nat.leb (count_key key m) 1) names
  | YSeq l => Nat.eqb (length l) (length names)
  | _ => false
  end.
(** The field [key] of a struct. (blueprint_with_subs.rs 12-495) *)
Definition member {A} (names : list text) (key : text) (f : yaml -> outcome yerr A) (v : yaml) : outcome yerr (option A) :=
  match v with
  | YMap m =>
      (fix go (m : list (option text * yaml)) :=
         match m with
         | [] => Ok None
         | (Some key', w) :: m' => if text_eqb key' key then omap Some (f w) else go m'
         | (None, _) :: m' => go m'
         end) m
  | YSeq l =>
      (fix go (l : list yaml) (names : list text) {struct l} :=
         match l, names with
         | w :: l', key' :: names' => if text_eqb key' key then omap Some (f w) else go l' names'
         | _, _ => Ok None
         end) l names
  | _ => Ok None
  end.
(** A field that has no default: left out, it is an error. blueprint_with_subs.rs 12-495. *)
Definition j_req {A} (names : list text) (key : text) (f : yaml -> outcome yerr A) (v : yaml) : outcome yerr A :=
  let! o := member names key f v in match o with Some a => Ok a | None => Err YFormat end.
(** [Option<T>]. (blueprint_with_subs.rs 12-495) *)
Definition nullable {A} (f : yaml -> outcome yerr A) (v : yaml) : outcome yerr (option A) :=
  match v with YNull => Ok None | _ => omap Some (f v) end.
(** A field of type [Option<T>]: left out, it is [None]. blueprint_with_subs.rs 12-495. *)
Definition j_opt {A} (names : list text) (key : text) (f : yaml -> outcome yerr A) (v : yaml) : outcome yerr (option A) :=
  let! o := member names key (nullable f) v in Ok (match o with Some x => x | None => None end).
(** A struct: blueprint_with_subs.rs 12-495 *)
Definition j_struct {A} (names : list text) (v : yaml) (body : outcome yerr A) : outcome yerr A :=
  if members names v then body else Err YFormat.
(** [HashMap<String, T>]: the last of several entries with the same key is kept. (blueprint_with_subs.rs 12-495) *)
Definition j_map {A} (f : yaml -> outcome yerr A) (v : yaml) : outcome yerr (list (text * A)) :=
  match v with
  | YMap m => foldo (fun r e => match e with (Some key, w) => let! a := f w in Ok (put key a r) | (None, _) => Err YFormat end) [] m
  | _ => Err YFormat
  end.
(** [Vec<T>]. (blueprint_with_subs.rs 12-495) *)
Definition j_list {A} (f : yaml -> outcome yerr A) (v : yaml) : outcome yerr (list A) :=
  match v with YSeq l => collect (fun w => omap Some (f w)) l | _ => Err YFormat end.
(** [#[serde(untagged)]]: the first variant that can be read. (blueprint_with_subs.rs 87-101, 140-145, 179-184, 214-219, 271-277) *)
Definition j_else {A} (x y : outcome yerr A) : outcome yerr A := match x with Err _ => y | _ => x end.
(** [String], [bool]. (blueprint_with_subs.rs 12-495) *)
Definition j_string (v : yaml) : outcome yerr text := match v with YStr t => Ok t | _ => Err YFormat end.
(** (blueprint_with_subs.rs 12-495) *)
Definition j_plain_bool (v : yaml) : outcome yerr bool := match v with YBool b => Ok b | _ => Err YFormat end.

Section Params.
Variable F : Type.
Variable parse_f64 : text -> option F.
Variable k : classes.
(** See ResolveModel: the string a text denotes when the text is itself a JSON string. *)
Variable json_text : text -> option text.
(** [z as f64] *)
Variable of_int : Z -> F.
Notation node := (node F).

(** parse_substitutions.rs 13-44 *)
Definition j_text (v : yaml) : outcome yerr (list part) := match v with YStr t => subs k t | _ => Err YFormat end.
(** parse_mapping_node.rs 13-123 *)
Fixpoint j_node (v : yaml) : outcome yerr node :=
  match v with
  | YMap m => omap (NMap F) (foldo (fun r e => match e with (Some key, w) => let! a := j_node w in Ok (put key a r) | (None, _) => Err YFormat end) [] m)
  | YSeq l => omap (NSeq F) (collect (fun w => omap Some (j_node w)) l)
  | YStr t => match json_string_node F k json_text t with Ok n => Ok n | Err _ => Err YFormat | Panic => Panic end
  | YBool b => Ok (NScalar F (SBool F b))
  | YInt z => Ok (NScalar F (SInt F (json_int z)))
  | YReal t => match parse_f64 t with Some f => Ok (NScalar F (SFloat F f)) | None => Err YNumber end
  | YNull => Err YFormat
  end.
(** blueprint.rs 101-108: an integer that is not an i64 is read as a float *)
Definition j_scalar (v : yaml) : outcome yerr (scalar F) :=
  match v with
  | YStr t => Ok (SStr F t)
  | YInt z => if (Z.leb (- 2 ^ 63) z && Z.ltb z (2 ^ 63))%Z then Ok (SInt F z) else Ok (SFloat F (of_int z))
  | YReal t => match parse_f64 t with Some f => Ok (SFloat F f) | None => Err YNumber end
  | YBool b => Ok (SBool F b)
  | _ => Err YFormat
  end.

(** blueprint.rs 70-82; that the type is not empty is checked later (validate_parsed.rs 26-36) *)
Definition j_var (v : yaml) : outcome yerr (var F) :=
  let names := map chars ["type"; "allowedValues"; "default"; "secret"; "description"]%string in
  j_struct names v (
    let! ty := j_req names (chars "type") j_string v in
    let! al := j_opt names (chars "allowedValues") (j_list j_scalar) v in
    let! de := j_opt names (chars "default") j_scalar v in
    let! se := j_opt names (chars "secret") j_plain_bool v in
    let! ds := j_opt names (chars "description") j_string v in
    Ok {| va_type := ty; va_allowed := al; va_default := de; va_description := ds; va_secret := se |}).
(** blueprint_with_subs.rs 21 *)
Definition j_vars (v : yaml) : outcome yerr (list (text * var F)) := j_map j_var v.
(** validate_parsed.rs 17-21, 26-36 *)
Definition typed_vars (vs : list (text * var F)) : bool := forallb (fun e => match va_type F (snd e) with [] => false | _ => true end) vs.

(** blueprint_with_subs.rs 68-85 *)
Definition j_shared (v : yaml) : outcome yerr (shared F) :=
  let names := map chars ["codeLocation"; "runtime"; "memory"; "timeout"; "tracingEnabled"; "environmentVariables"]%string in
  j_struct names v (
    let! lo := j_opt names (chars "codeLocation") j_text v in
    let! ru := j_opt names (chars "runtime") j_text v in
    let! me := j_opt names (chars "memory") j_node v in
    let! ti := j_opt names (chars "timeout") j_node v in
    let! tr := j_opt names (chars "tracingEnabled") j_node v in
    let! en := j_opt names (chars "environmentVariables") (j_map j_text) v in
    Ok {| hc_location := lo; hc_runtime := ru; hc_memory := me; hc_timeout := ti; hc_tracing := tr; hc_env := en |}).
(** blueprint_with_subs.rs 103-124 *)
Definition j_handler (v : yaml) : outcome yerr (handler F) :=
  let names := map chars ["handlerName"; "codeLocation"; "handler"; "runtime"; "memory"; "timeout"; "tracingEnabled"; "environmentVariables"]%string in
  j_struct names v (
    let! na := j_opt names (chars "handlerName") j_text v in
    let! lo := j_opt names (chars "codeLocation") j_text v in
    let! ha := j_req names (chars "handler") j_text v in
    let! ru := j_opt names (chars "runtime") j_text v in
    let! me := j_opt names (chars "memory") j_node v in
    let! ti := j_opt names (chars "timeout") j_node v in
    let! tr := j_opt names (chars "tracingEnabled") j_node v in
    let! en := j_opt names (chars "environmentVariables") (j_map j_text) v in
    Ok {| ha_name := na; ha_location := lo; ha_handler := ha; ha_runtime := ru; ha_memory := me; ha_timeout := ti; ha_tracing := tr; ha_env := en |}).
(** blueprint_with_subs.rs 315-318 *)
Definition j_schedule (v : yaml) : outcome yerr (list part) :=
  let names := map chars ["schedule"]%string in
  j_struct names v (j_req names (chars "schedule") j_text v).

(** blueprint.rs 548-556; a variant without data is a string, or an object that maps its name to
    null *)
Definition event_type_of (t : text) : outcome yerr event_type :=
  if text_eqb t (chars "objectStorage") then Ok ObjectStorage
  else if text_eqb t (chars "dbStream") then Ok DatabaseStream
  else if text_eqb t (chars "dataStream") then Ok DataStream
  else Err YFormat.
(** blueprint.rs, EventSourceType (as in parse_yaml.rs 862-873) *)
Definition j_event_type (v : yaml) : outcome yerr event_type :=
  match v with
  | YStr t => event_type_of t
  | YMap [(Some t, YNull)] => event_type_of t
  | _ => Err YFormat
  end.
(** blueprint_with_subs.rs 279-283 *)
Definition j_storage (v : yaml) : outcome yerr storage :=
  let names := map chars ["bucket"; "events"]%string in
  j_struct names v (
    let! bu := j_req names (chars "bucket") j_text v in
    let! ev := j_req names (chars "events") (j_list j_text) v in
    Ok {| os_bucket := bu; os_events := ev |}).
(** blueprint_with_subs.rs 285-298 with [id] dbStreamId, 300-313 with [id] dataStreamId *)
Definition j_stream (id : text) (v : yaml) : outcome yerr (stream F) :=
  let names := [chars "batchSize"; id; chars "partialFailures"; chars "startFromBeginning"] in
  j_struct names v (
    let! ba := j_opt names (chars "batchSize") j_node v in
    let! i := j_req names id j_text v in
    let! pa := j_opt names (chars "partialFailures") j_node v in
    let! be := j_opt names (chars "startFromBeginning") j_node v in
    Ok {| st_id := i; st_options := {| so_batch := ba; so_partial := pa; so_beginning := be |} |}).
(** blueprint_with_subs.rs 271-277: the type of the source is not looked at *)
Definition j_event_source (v : yaml) : outcome yerr (event_source F) :=
  j_else (omap (FromStorage F) (j_storage v))
    (j_else (omap (FromDatabase F) (j_stream (chars "dbStreamId") v)) (omap (FromData F) (j_stream (chars "dataStreamId") v))).
(** blueprint_with_subs.rs 252-258 *)
Definition j_event (v : yaml) : outcome yerr (event F) :=
  let names := map chars ["sourceType"; "sourceConfiguration"]%string in
  j_struct names v (
    let! ty := j_req names (chars "sourceType") j_event_type v in
    let! s := j_req names (chars "sourceConfiguration") j_event_source v in
    Ok (ty, s)).
(** blueprint_with_subs.rs 227-250 *)
Definition j_consumer (v : yaml) : outcome yerr (consumer F) :=
  let names := map chars ["sourceId"; "batchSize"; "visibilityTimeout"; "waitTimeSeconds"; "partialFailures"; "routingKey"; "externalEvents"]%string in
  j_struct names v (
    let! so := j_opt names (chars "sourceId") j_text v in
    let! ba := j_opt names (chars "batchSize") j_node v in
    let! vi := j_opt names (chars "visibilityTimeout") j_node v in
    let! wa := j_opt names (chars "waitTimeSeconds") j_node v in
    let! pa := j_opt names (chars "partialFailures") j_node v in
    let! ro := j_opt names (chars "routingKey") j_text v in
    let! ev := j_opt names (chars "externalEvents") (j_map j_event) v in
    Ok {| co_source := so; co_batch := ba; co_visibility := vi; co_wait := wa; co_partial := pa; co_routing := ro; co_events := ev |}).

(** blueprint_with_subs.rs 147-161 *)
Definition j_cors (v : yaml) : outcome yerr (cors F) :=
  let names := map chars ["allowCredentials"; "allowOrigins"; "allowMethods"; "allowHeaders"; "exposeHeaders"; "maxAge"]%string in
  j_struct names v (
    let! cr := j_opt names (chars "allowCredentials") j_node v in
    let! ori := j_opt names (chars "allowOrigins") (j_list j_text) v in
    let! me := j_opt names (chars "allowMethods") (j_list j_text) v in
    let! he := j_opt names (chars "allowHeaders") (j_list j_text) v in
    let! ex := j_opt names (chars "exposeHeaders") (j_list j_text) v in
    let! ag := j_opt names (chars "maxAge") j_node v in
    Ok {| cr_credentials := cr; cr_origins := ori; cr_methods := me; cr_headers := he; cr_expose := ex; cr_age := ag |}).
(** blueprint_with_subs.rs 140-145 *)
Definition j_cors_choice (v : yaml) : outcome yerr (cors_choice F) := j_else (omap (CorsText F) (j_text v)) (omap (CorsConfig F) (j_cors v)).
(** blueprint_with_subs.rs 186-191 *)
Definition j_base (v : yaml) : outcome yerr (base F) :=
  let names := map chars ["protocol"; "basePath"]%string in
  j_struct names v (
    let! pr := j_req names (chars "protocol") j_node v in
    let! pa := j_req names (chars "basePath") j_text v in
    Ok {| bp_protocol := pr; bp_path := pa |}).
(** blueprint_with_subs.rs 179-184 *)
Definition j_base_path (v : yaml) : outcome yerr (base_path F) := j_else (omap (BaseText F) (j_text v)) (omap (BaseConfig F) (j_base v)).
(** blueprint_with_subs.rs 163-177 *)
Definition j_domain (v : yaml) : outcome yerr (domain F) :=
  let names := map chars ["domainName"; "basePaths"; "normalizeBasePath"; "certificateId"; "securityPolicy"]%string in
  j_struct names v (
    let! na := j_req names (chars "domainName") j_text v in
    let! pa := j_req names (chars "basePaths") (j_list j_base_path) v in
    let! no := j_opt names (chars "normalizeBasePath") j_node v in
    let! ce := j_req names (chars "certificateId") j_text v in
    let! po := j_opt names (chars "securityPolicy") j_text v in
    Ok {| dm_name := na; dm_paths := pa; dm_normalize := no; dm_certificate := ce; dm_policy := po |}).
(** blueprint_with_subs.rs 221-225 *)
Definition j_source (v : yaml) : outcome yerr (source F) :=
  let names := map chars ["protocol"; "source"]%string in
  j_struct names v (
    let! pr := j_req names (chars "protocol") j_node v in
    let! so := j_req names (chars "source") j_text v in
    Ok {| vs_protocol := pr; vs_source := so |}).
(** blueprint_with_subs.rs 214-219 *)
Definition j_value_source (v : yaml) : outcome yerr (value_source F) := j_else (omap (SourceText F) (j_text v)) (omap (SourceConfig F) (j_source v)).
(** blueprint_with_subs.rs 201-212 *)
Definition j_guard (v : yaml) : outcome yerr (guard F) :=
  let names := map chars ["type"; "issuer"; "tokenSource"; "audience"]%string in
  j_struct names v (
    let! ty := j_req names (chars "type") j_text v in
    let! is := j_opt names (chars "issuer") j_text v in
    let! so := j_opt names (chars "tokenSource") j_value_source v in
    let! au := j_opt names (chars "audience") (j_list j_text) v in
    Ok {| gd_type := ty; gd_issuer := is; gd_token := so; gd_audience := au |}).
(** blueprint_with_subs.rs 193-199 *)
Definition j_auth (v : yaml) : outcome yerr (auth F) :=
  let names := map chars ["defaultGuard"; "guards"]%string in
  j_struct names v (
    let! de := j_opt names (chars "defaultGuard") j_text v in
    let! gu := j_req names (chars "guards") (j_map j_guard) v in
    Ok {| au_default := de; au_guards := gu |}).
(** blueprint_with_subs.rs 126-138 *)
Definition j_api (v : yaml) : outcome yerr (api F) :=
  let names := map chars ["protocols"; "cors"; "domain"; "auth"; "tracingEnabled"]%string in
  j_struct names v (
    let! pr := j_req names (chars "protocols") (j_list j_node) v in
    let! co := j_opt names (chars "cors") j_cors_choice v in
    let! dm := j_opt names (chars "domain") j_domain v in
    let! au := j_opt names (chars "auth") j_auth v in
    let! tr := j_opt names (chars "tracingEnabled") j_node v in
    Ok {| ap_protocols := pr; ap_cors := co; ap_domain := dm; ap_auth := au; ap_tracing := tr |}).

(** blueprint_with_subs.rs 383-387 *)
Definition j_condition (v : yaml) : outcome yerr (scond F) :=
  let names := map chars ["inputs"; "function"]%string in
  j_struct names v (
    let! i := j_req names (chars "inputs") (j_list j_node) v in
    let! f := j_req names (chars "function") j_text v in
    Ok {| sc_inputs := i; sc_function := f |}).
(** blueprint_with_subs.rs 370-381 *)
Definition j_rule (v : yaml) : outcome yerr (srule F) :=
  let names := map chars ["and"; "or"; "not"; "condition"; "next"]%string in
  j_struct names v (
    let! a := j_opt names (chars "and") (j_list j_condition) v in
    let! o := j_opt names (chars "or") (j_list j_condition) v in
    let! n := j_opt names (chars "not") j_condition v in
    let! c := j_opt names (chars "condition") j_condition v in
    let! ne := j_req names (chars "next") j_text v in
    Ok {| su_and := a; su_or := o; su_not := n; su_condition := c; su_next := ne |}).
(** blueprint_with_subs.rs 389-395 *)
Definition j_wait (v : yaml) : outcome yerr swait :=
  let names := map chars ["seconds"; "timestamp"]%string in
  j_struct names v (
    let! s := j_opt names (chars "seconds") j_text v in
    let! t := j_opt names (chars "timestamp") j_text v in
    Ok {| sw_seconds := s; sw_timestamp := t |}).
(** blueprint_with_subs.rs 397-403 *)
Definition j_failure (v : yaml) : outcome yerr sfail :=
  let names := map chars ["error"; "cause"]%string in
  j_struct names v (
    let! e := j_opt names (chars "error") j_text v in
    let! c := j_opt names (chars "cause") j_text v in
    Ok {| sf_error := e; sf_cause := c |}).
(** blueprint_with_subs.rs 412-429 *)
Definition j_retry (v : yaml) : outcome yerr (sretry F) :=
  let names := map chars ["matchErrors"; "interval"; "maxAttempts"; "maxDelay"; "jitter"; "backoffRate"]%string in
  j_struct names v (
    let! ma := j_req names (chars "matchErrors") (j_list j_text) v in
    let! i := j_opt names (chars "interval") j_node v in
    let! at_ := j_opt names (chars "maxAttempts") j_node v in
    let! de := j_opt names (chars "maxDelay") j_node v in
    let! ji := j_opt names (chars "jitter") j_node v in
    let! ba := j_opt names (chars "backoffRate") j_node v in
    Ok {| sy_match := ma; sy_interval := i; sy_attempts := at_; sy_delay := de; sy_jitter := ji; sy_backoff := ba |}).
(** blueprint_with_subs.rs 431-439 *)
Definition j_catch (v : yaml) : outcome yerr scatch :=
  let names := map chars ["matchErrors"; "next"; "resultPath"]%string in
  j_struct names v (
    let! ma := j_req names (chars "matchErrors") (j_list j_text) v in
    let! ne := j_req names (chars "next") j_text v in
    let! pa := j_opt names (chars "resultPath") j_text v in
    Ok {| sh_match := ma; sh_next := ne; sh_path := pa |}).
(** blueprint_with_subs.rs 320-325 and 405-410; [state] reads a state *)
Definition j_machine (state : yaml -> outcome yerr (sstate F)) (v : yaml) : outcome yerr (smachine F) :=
  let names := map chars ["startAt"; "states"]%string in
  j_struct names v (
    let! st := j_req names (chars "startAt") j_text v in
    let! ss := j_req names (chars "states") (j_map state) v in
    Ok (st, ss)).
(** blueprint_with_subs.rs 327-368 *)
Definition state_names : list text :=
  map chars ["type"; "description"; "inputPath"; "resultPath"; "outputPath"; "payloadTemplate"; "next"; "end"; "decisions"; "result";
             "timeout"; "waitConfig"; "failureConfig"; "parallelBranches"; "retry"; "catch"]%string.
(** blueprint_with_subs.rs 327-439: a state of a workflow, whose branches have states *)
Fixpoint j_state (v : yaml) : outcome yerr (sstate F) :=
  j_struct state_names v (
    let! ty := j_req state_names (chars "type") j_text v in
    let! de := j_opt state_names (chars "description") j_text v in
    let! ip := j_opt state_names (chars "inputPath") j_text v in
    let! rp := j_opt state_names (chars "resultPath") j_text v in
    let! op := j_opt state_names (chars "outputPath") j_text v in
    let! pt := j_opt state_names (chars "payloadTemplate") (j_map j_node) v in
    let! nx := j_opt state_names (chars "next") j_text v in
    let! en := j_opt state_names (chars "end") j_node v in
    let! ds := j_opt state_names (chars "decisions") (j_list j_rule) v in
    let! re := j_opt state_names (chars "result") j_node v in
    let! ti := j_opt state_names (chars "timeout") j_node v in
    let! wa := j_opt state_names (chars "waitConfig") j_wait v in
    let! fa := j_opt state_names (chars "failureConfig") j_failure v in
    let! br := j_opt state_names (chars "parallelBranches") (j_list (j_machine j_state)) v in
    let! rt := j_opt state_names (chars "retry") (j_list j_retry) v in
    let! ca := j_opt state_names (chars "catch") (j_list j_catch) v in
    Ok (mk_sstate F ty de ip rp op pt nx en ds re ti wa fa br rt ca)).
(** blueprint_with_subs.rs 320-325 *)
Definition j_workflow (v : yaml) : outcome yerr (smachine F) := j_machine j_state v.

(** blueprint_with_subs.rs 441-447 *)
Definition j_config (v : yaml) : outcome yerr config :=
  let names := map chars ["name"; "plaintext"]%string in
  j_struct names v (
    let! na := j_opt names (chars "name") j_text v in
    let! pl := j_opt names (chars "plaintext") (j_list j_text) v in
    Ok {| cf_name := na; cf_plaintext := pl |}).
(** blueprint_with_subs.rs 449-453 *)
Definition j_bucket (v : yaml) : outcome yerr bucket :=
  let names := map chars ["name"]%string in
  j_struct names v (
    let! na := j_opt names (chars "name") j_text v in
    Ok {| bk_name := na |}).
(** blueprint_with_subs.rs 455-461; the [Default] of 463-470 is not used *)
Definition j_topic (v : yaml) : outcome yerr (topic F) :=
  let names := map chars ["name"; "fifo"]%string in
  j_struct names v (
    let! na := j_opt names (chars "name") j_text v in
    let! fi := j_opt names (chars "fifo") j_node v in
    Ok {| tp_name := na; tp_fifo := fi |}).
(** blueprint_with_subs.rs 472-481; the [Default] of 483-491 is not used *)
Definition j_queue (v : yaml) : outcome yerr (queue F) :=
  let names := map chars ["name"; "fifo"; "visibilityTimeout"]%string in
  j_struct names v (
    let! na := j_opt names (chars "name") j_text v in
    let! fi := j_opt names (chars "fifo") j_node v in
    let! vi := j_opt names (chars "visibilityTimeout") j_node v in
    Ok {| qu_name := na; qu_fifo := fi; qu_visibility := vi |}).

(** blueprint_with_subs.rs 51-59 *)
Definition j_metadata (v : yaml) : outcome yerr (metadata F) :=
  let names := map chars ["displayName"; "annotations"; "labels"]%string in
  j_struct names v (
    let! na := j_req names (chars "displayName") j_text v in
    let! an := j_opt names (chars "annotations") (j_map j_node) v in
    let! la := j_opt names (chars "labels") (j_map j_string) v in
    Ok {| me_name := na; me_annotations := an; me_labels := la |}).
(** blueprint.rs 210-214 *)
Definition j_selector (v : yaml) : outcome yerr (list (text * text)) :=
  let names := map chars ["byLabel"]%string in
  j_struct names v (j_req names (chars "byLabel") (j_map j_string) v).
(** blueprint_with_subs.rs 61-66 *)
Definition j_blueprint_metadata (v : yaml) : outcome yerr (option (shared F)) :=
  let names := map chars ["sharedHandlerConfig"]%string in
  j_struct names v (j_opt names (chars "sharedHandlerConfig") j_shared v).

(** parse_blueprint_resource.rs 43-97 *)
Definition j_spec (ty : rtype) (v : yaml) : outcome yerr (spec F) :=
  match ty with
  | THandler => omap (PHandler F) (j_handler v)
  | TApi => omap (PApi F) (j_api v)
  | TConsumer => omap (PConsumer F) (j_consumer v)
  | TSchedule => omap (PSchedule F) (j_schedule v)
  | THandlerConfig => omap (PShared F) (j_shared v)
  | TWorkflow => omap (PWorkflow F) (j_workflow v)
  | TConfig => omap (PConfig F) (j_config v)
  | TBucket => omap (PBucket F) (j_bucket v)
  | TTopic => omap (PTopic F) (j_topic v)
  | TQueue => omap (PQueue F) (j_queue v)
  end.
End Params.
