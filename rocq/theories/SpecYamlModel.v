(** Reading the specs of resources, their metadata and link selectors, and variables from YAML,
    libs/runtime/blueprint-config-parser/src/parse_yaml.rs 112-191, 316-1805 *)
From Verif Require Import Base Chars SubstModel ResolveModel BlueprintModel WfYamlModel.
Local Open Scope list_scope.

(** blueprint.rs 548-559 *)
Inductive event_type := ObjectStorage | DatabaseStream | DataStream.

(** [if let Yaml::Hash(m) = value { f(m)? } else { Err(..)? }] and the same for an array, each
    element of which is read. parse_yaml.rs 112-1805. *)
Definition y_mapping {A} (f : list (option text * yaml) -> outcome yerr A) (v : yaml) : outcome yerr A :=
  match v with YMap m => f m | _ => Err YFormat end.
(** parse_yaml.rs 692-706, 1033-1054 *)
Definition y_seq {A} (f : yaml -> outcome yerr A) (v : yaml) : outcome yerr (list A) :=
  match v with YSeq l => collect (fun w => omap Some (f w)) l | _ => Err YFormat end.
(** [if let Some(v) = map.get(key) { f(v)? } else { Err(..)? }], and without the [else]. parse_yaml.rs 660-873. *)
Definition need_field {A} (key : text) (f : yaml -> outcome yerr A) (m : list (option text * yaml)) : outcome yerr A :=
  match yget key m with Some v => f v | None => Err YFormat end.
(** parse_yaml.rs 660-860 *)
Definition may_field {A} (key : text) (f : yaml -> outcome yerr A) (m : list (option text * yaml)) : outcome yerr (option A) :=
  match yget key m with Some v => omap Some (f v) | None => Ok None end.
(** a loop that inserts what it reads from the entries whose value is a mapping, and skips the
    others; a [HashMap] is a list of entries with distinct keys. parse_yaml.rs 583-598, 1272-1287. *)
Definition y_named {A} (f : list (option text * yaml) -> outcome yerr A) (m : list (option text * yaml)) : outcome yerr (list (text * A)) :=
  collect (fun e => match e with (Some key, YMap m') => let! a := f m' in Ok (Some (key, a)) | _ => Ok None end) m.
(** 1480-1489, 137-146, 170-177 and 160-167: a plain string, a plain boolean *)
Definition y_string (v : yaml) : outcome yerr text := match v with YStr t => Ok t | _ => Err YFormat end.
(** parse_yaml.rs 131-191: a [Yaml::Boolean] *)
Definition y_plain_bool (v : yaml) : outcome yerr bool := match v with YBool b => Ok b | _ => Err YFormat end.

Section Params.
Variable F : Type.
Variable parse_f64 : text -> option F.
Variable k : classes.
Notation node := (node F).

(** 692-706, 1033-1054, 1332-1348, yaml_helpers.rs 92-107 *)
Definition y_texts (v : yaml) : outcome yerr (list (list part)) := match v with YSeq l => y_strings k l | _ => Err YFormat end.
(** 875-894 *)
Definition y_strmap (m : list (option text * yaml)) : outcome yerr (list (text * list part)) :=
  collect (fun e => match e with (Some key, v) => let! a := y_text k v in Ok (Some (key, a)) | (None, _) => Ok None end) m.
(** yaml_helpers.rs 53-70 *)
Definition y_scalar (v : yaml) : outcome yerr (scalar F) :=
  match v with
  | YInt z => Ok (SInt F z)
  | YReal t => match parse_f64 t with Some f => Ok (SFloat F f) | None => Err YNumber end
  | YBool b => Ok (SBool F b)
  | YStr t => Ok (SStr F t)
  | _ => Err YFormat
  end.

(** blueprint.rs 70-82 *)
Record var := { va_type : text; va_allowed : option (list (scalar F)); va_default : option (scalar F); va_description : option text; va_secret : option bool }.
(** 136-181, one entry *)
Definition var_entry (x : var) (e : option text * yaml) : outcome yerr var :=
  match e with
  | (None, _) => Ok x
  | (Some key, v) =>
      if text_eqb key (chars "type") then
        let! a := y_string v in Ok {| va_type := a; va_allowed := va_allowed x; va_default := va_default x; va_description := va_description x; va_secret := va_secret x |}
      else if text_eqb key (chars "allowedValues") then
        match v with
        | YSeq _ => let! a := y_seq y_scalar v in Ok {| va_type := va_type x; va_allowed := Some a; va_default := va_default x; va_description := va_description x; va_secret := va_secret x |}
        | _ => Ok x
        end
      else if text_eqb key (chars "default") then
        let! a := y_scalar v in Ok {| va_type := va_type x; va_allowed := va_allowed x; va_default := Some a; va_description := va_description x; va_secret := va_secret x |}
      else if text_eqb key (chars "description") then
        let! a := y_string v in Ok {| va_type := va_type x; va_allowed := va_allowed x; va_default := va_default x; va_description := Some a; va_secret := va_secret x |}
      else if text_eqb key (chars "secret") then
        let! a := y_plain_bool v in Ok {| va_type := va_type x; va_allowed := va_allowed x; va_default := va_default x; va_description := va_description x; va_secret := Some a |}
      else Ok x
  end.
(** blueprint.rs 85-95 *)
Definition empty_var : var := {| va_type := []; va_allowed := None; va_default := None; va_description := None; va_secret := None |}.
(** 131-191 *)
Definition y_var (m : list (option text * yaml)) : outcome yerr var :=
  let! x := foldo var_entry empty_var m in
  if match va_type x with [] => true | _ => false end then Err YFormat else Ok x.
(** 112-129 *)
Definition y_vars (m : list (option text * yaml)) : outcome yerr (list (text * var)) := y_named y_var m.

(** blueprint_with_subs.rs 68-85 *)
Record shared := { hc_location : option (list part); hc_runtime : option (list part); hc_memory : option node; hc_timeout : option node; hc_tracing : option node; hc_env : option (list (text * list part)) }.
(** 1725-1802, one entry *)
Definition shared_entry (x : shared) (e : option text * yaml) : outcome yerr shared :=
  match e with
  | (None, _) => Ok x
  | (Some key, v) =>
      if text_eqb key (chars "codeLocation") then
        let! a := y_text k v in Ok {| hc_location := Some a; hc_runtime := hc_runtime x; hc_memory := hc_memory x; hc_timeout := hc_timeout x; hc_tracing := hc_tracing x; hc_env := hc_env x |}
      else if text_eqb key (chars "runtime") then
        let! a := y_text k v in Ok {| hc_location := hc_location x; hc_runtime := Some a; hc_memory := hc_memory x; hc_timeout := hc_timeout x; hc_tracing := hc_tracing x; hc_env := hc_env x |}
      else if text_eqb key (chars "memory") then
        let! a := y_int F k v in Ok {| hc_location := hc_location x; hc_runtime := hc_runtime x; hc_memory := Some a; hc_timeout := hc_timeout x; hc_tracing := hc_tracing x; hc_env := hc_env x |}
      else if text_eqb key (chars "timeout") then
        let! a := y_int F k v in Ok {| hc_location := hc_location x; hc_runtime := hc_runtime x; hc_memory := hc_memory x; hc_timeout := Some a; hc_tracing := hc_tracing x; hc_env := hc_env x |}
      else if text_eqb key (chars "tracingEnabled") then
        let! a := y_bool F k v in Ok {| hc_location := hc_location x; hc_runtime := hc_runtime x; hc_memory := hc_memory x; hc_timeout := hc_timeout x; hc_tracing := Some a; hc_env := hc_env x |}
      else if text_eqb key (chars "environmentVariables") then
        let! a := y_mapping y_strmap v in Ok {| hc_location := hc_location x; hc_runtime := hc_runtime x; hc_memory := hc_memory x; hc_timeout := hc_timeout x; hc_tracing := hc_tracing x; hc_env := Some a |}
      else Ok x
  end.
(** blueprint_with_subs.rs 68-85 (derived) *)
Definition empty_shared : shared := {| hc_location := None; hc_runtime := None; hc_memory := None; hc_timeout := None; hc_tracing := None; hc_env := None |}.
(** 1721-1805 *)
Definition y_shared (m : list (option text * yaml)) : outcome yerr shared :=
  foldo shared_entry empty_shared m.
(** blueprint_with_subs.rs 103-124 *)
Record handler := { ha_name : option (list part); ha_location : option (list part); ha_handler : list part; ha_runtime : option (list part); ha_memory : option node; ha_timeout : option node; ha_tracing : option node; ha_env : option (list (text * list part)) }.
(** 358-455, one entry *)
Definition handler_entry (x : handler) (e : option text * yaml) : outcome yerr handler :=
  match e with
  | (None, _) => Ok x
  | (Some key, v) =>
      if text_eqb key (chars "handlerName") then
        let! a := y_text k v in Ok {| ha_name := Some a; ha_location := ha_location x; ha_handler := ha_handler x; ha_runtime := ha_runtime x; ha_memory := ha_memory x; ha_timeout := ha_timeout x; ha_tracing := ha_tracing x; ha_env := ha_env x |}
      else if text_eqb key (chars "codeLocation") then
        let! a := y_text k v in Ok {| ha_name := ha_name x; ha_location := Some a; ha_handler := ha_handler x; ha_runtime := ha_runtime x; ha_memory := ha_memory x; ha_timeout := ha_timeout x; ha_tracing := ha_tracing x; ha_env := ha_env x |}
      else if text_eqb key (chars "handler") then
        let! a := y_text k v in Ok {| ha_name := ha_name x; ha_location := ha_location x; ha_handler := a; ha_runtime := ha_runtime x; ha_memory := ha_memory x; ha_timeout := ha_timeout x; ha_tracing := ha_tracing x; ha_env := ha_env x |}
      else if text_eqb key (chars "runtime") then
        let! a := y_text k v in Ok {| ha_name := ha_name x; ha_location := ha_location x; ha_handler := ha_handler x; ha_runtime := Some a; ha_memory := ha_memory x; ha_timeout := ha_timeout x; ha_tracing := ha_tracing x; ha_env := ha_env x |}
      else if text_eqb key (chars "memory") then
        let! a := y_int F k v in Ok {| ha_name := ha_name x; ha_location := ha_location x; ha_handler := ha_handler x; ha_runtime := ha_runtime x; ha_memory := Some a; ha_timeout := ha_timeout x; ha_tracing := ha_tracing x; ha_env := ha_env x |}
      else if text_eqb key (chars "timeout") then
        let! a := y_int F k v in Ok {| ha_name := ha_name x; ha_location := ha_location x; ha_handler := ha_handler x; ha_runtime := ha_runtime x; ha_memory := ha_memory x; ha_timeout := Some a; ha_tracing := ha_tracing x; ha_env := ha_env x |}
      else if text_eqb key (chars "tracingEnabled") then
        let! a := y_bool F k v in Ok {| ha_name := ha_name x; ha_location := ha_location x; ha_handler := ha_handler x; ha_runtime := ha_runtime x; ha_memory := ha_memory x; ha_timeout := ha_timeout x; ha_tracing := Some a; ha_env := ha_env x |}
      else if text_eqb key (chars "environmentVariables") then
        let! a := y_mapping y_strmap v in Ok {| ha_name := ha_name x; ha_location := ha_location x; ha_handler := ha_handler x; ha_runtime := ha_runtime x; ha_memory := ha_memory x; ha_timeout := ha_timeout x; ha_tracing := ha_tracing x; ha_env := Some a |}
      else Ok x
  end.
(** blueprint_with_subs.rs 103-124 (derived) *)
Definition empty_handler : handler := {| ha_name := None; ha_location := None; ha_handler := []; ha_runtime := None; ha_memory := None; ha_timeout := None; ha_tracing := None; ha_env := None |}.
(** 354-458 *)
Definition y_handler (m : list (option text * yaml)) : outcome yerr handler :=
  foldo handler_entry empty_handler m.

(** blueprint_with_subs.rs 315-318 and 460-478 *)
Definition y_schedule (m : list (option text * yaml)) : outcome yerr (list part) := need_field (chars "schedule") (y_text k) m.

(** the optional fields of blueprint_with_subs.rs 285-298 and 300-313 *)
Record options := { so_batch : option node; so_partial : option node; so_beginning : option node }.
(** 731-780 and 807-856, one entry *)
Definition options_entry (x : options) (e : option text * yaml) : outcome yerr options :=
  match e with
  | (None, _) => Ok x
  | (Some key, v) =>
      if text_eqb key (chars "batchSize") then
        let! a := y_int F k v in Ok {| so_batch := Some a; so_partial := so_partial x; so_beginning := so_beginning x |}
      else if text_eqb key (chars "partialFailures") then
        let! a := y_bool F k v in Ok {| so_batch := so_batch x; so_partial := Some a; so_beginning := so_beginning x |}
      else if text_eqb key (chars "startFromBeginning") then
        let! a := y_bool F k v in Ok {| so_batch := so_batch x; so_partial := so_partial x; so_beginning := Some a |}
      else Ok x
  end.
(** blueprint_with_subs.rs 285-313 (derived) *)
Definition empty_options : options := {| so_batch := None; so_partial := None; so_beginning := None |}.
(** 731-780 and 807-856 *)
Definition y_options (m : list (option text * yaml)) : outcome yerr options :=
  foldo options_entry empty_options m.
(** blueprint_with_subs.rs 279-283, 285-298, 300-313 *)
Record storage := { os_bucket : list part; os_events : list (list part) }.
(** blueprint_with_subs.rs 285-313: the two stream sources, alike *)
Record stream := { st_id : list part; st_options : options }.
(** blueprint_with_subs.rs 271-277 *)
Inductive event_source := FromStorage (s : storage) | FromDatabase (s : stream) | FromData (s : stream).
(** blueprint_with_subs.rs 252-258 *)
Definition event : Type := (event_type * event_source).
(** 660-690 *)
Definition y_storage (m : list (option text * yaml)) : outcome yerr storage :=
  let! b := need_field (chars "bucket") (y_text k) m in
  let! e := may_field (chars "events") y_texts m in
  Ok {| os_bucket := b; os_events := match e with Some l => l | None => [] end |}.
(** 708-783 *)
Definition y_database (m : list (option text * yaml)) : outcome yerr stream :=
  let! i := need_field (chars "dbStreamId") (y_text k) m in
  let! o := y_options m in
  Ok {| st_id := i; st_options := o |}.
(** 785-858 *)
Definition y_data (m : list (option text * yaml)) : outcome yerr stream :=
  let! i := need_field (chars "dataStreamId") (y_text k) m in
  let! o := y_options m in
  Ok {| st_id := i; st_options := o |}.
(** 862-873 *)
Definition y_event_type (v : yaml) : outcome yerr event_type :=
  match v with
  | YStr t => if text_eqb t (chars "objectStorage") then Ok ObjectStorage
              else if text_eqb t (chars "dbStream") then Ok DatabaseStream
              else if text_eqb t (chars "dataStream") then Ok DataStream
              else Err YFormat
  | _ => Err YFormat
  end.
(** 627-648 *)
Definition y_event_source (ty : event_type) (m : list (option text * yaml)) : outcome yerr event_source :=
  match ty with
  | ObjectStorage => omap FromStorage (y_storage m)
  | DatabaseStream => omap FromDatabase (y_database m)
  | DataStream => omap FromData (y_data m)
  end.
(** 600-658 *)
Definition y_event (m : list (option text * yaml)) : outcome yerr event :=
  let! ty := need_field (chars "sourceType") y_event_type m in
  let! s := need_field (chars "sourceConfiguration") (y_mapping (y_event_source ty)) m in
  Ok (ty, s).
(** with the entries of 583-598 *)
(** blueprint_with_subs.rs 227-250 *)
Record consumer := { co_source : option (list part); co_batch : option node; co_visibility : option node; co_wait : option node; co_partial : option node; co_routing : option (list part); co_events : option (list (text * event)) }.
(** 484-578, one entry *)
Definition consumer_entry (x : consumer) (e : option text * yaml) : outcome yerr consumer :=
  match e with
  | (None, _) => Ok x
  | (Some key, v) =>
      if text_eqb key (chars "sourceId") then
        let! a := y_text k v in Ok {| co_source := Some a; co_batch := co_batch x; co_visibility := co_visibility x; co_wait := co_wait x; co_partial := co_partial x; co_routing := co_routing x; co_events := co_events x |}
      else if text_eqb key (chars "batchSize") then
        let! a := y_int F k v in Ok {| co_source := co_source x; co_batch := Some a; co_visibility := co_visibility x; co_wait := co_wait x; co_partial := co_partial x; co_routing := co_routing x; co_events := co_events x |}
      else if text_eqb key (chars "visibilityTimeout") then
        let! a := y_int F k v in Ok {| co_source := co_source x; co_batch := co_batch x; co_visibility := Some a; co_wait := co_wait x; co_partial := co_partial x; co_routing := co_routing x; co_events := co_events x |}
      else if text_eqb key (chars "waitTimeSeconds") then
        let! a := y_int F k v in Ok {| co_source := co_source x; co_batch := co_batch x; co_visibility := co_visibility x; co_wait := Some a; co_partial := co_partial x; co_routing := co_routing x; co_events := co_events x |}
      else if text_eqb key (chars "partialFailures") then
        let! a := y_bool F k v in Ok {| co_source := co_source x; co_batch := co_batch x; co_visibility := co_visibility x; co_wait := co_wait x; co_partial := Some a; co_routing := co_routing x; co_events := co_events x |}
      else if text_eqb key (chars "routingKey") then
        let! a := y_text k v in Ok {| co_source := co_source x; co_batch := co_batch x; co_visibility := co_visibility x; co_wait := co_wait x; co_partial := co_partial x; co_routing := Some a; co_events := co_events x |}
      else if text_eqb key (chars "externalEvents") then
        let! a := y_mapping (y_named y_event) v in Ok {| co_source := co_source x; co_batch := co_batch x; co_visibility := co_visibility x; co_wait := co_wait x; co_partial := co_partial x; co_routing := co_routing x; co_events := Some a |}
      else Ok x
  end.
(** blueprint_with_subs.rs 227-250 (derived) *)
Definition empty_consumer : consumer := {| co_source := None; co_batch := None; co_visibility := None; co_wait := None; co_partial := None; co_routing := None; co_events := None |}.
(** 480-581 *)
Definition y_consumer (m : list (option text * yaml)) : outcome yerr consumer :=
  foldo consumer_entry empty_consumer m.

(** blueprint_with_subs.rs 147-161 *)
Record cors := { cr_credentials : option node; cr_origins : option (list (list part)); cr_methods : option (list (list part)); cr_headers : option (list (list part)); cr_expose : option (list (list part)); cr_age : option node }.
(** 983-1029, one entry *)
Definition cors_entry (x : cors) (e : option text * yaml) : outcome yerr cors :=
  match e with
  | (None, _) => Ok x
  | (Some key, v) =>
      if text_eqb key (chars "allowCredentials") then
        let! a := y_bool F k v in Ok {| cr_credentials := Some a; cr_origins := cr_origins x; cr_methods := cr_methods x; cr_headers := cr_headers x; cr_expose := cr_expose x; cr_age := cr_age x |}
      else if text_eqb key (chars "allowOrigins") then
        let! a := y_texts v in Ok {| cr_credentials := cr_credentials x; cr_origins := Some a; cr_methods := cr_methods x; cr_headers := cr_headers x; cr_expose := cr_expose x; cr_age := cr_age x |}
      else if text_eqb key (chars "allowMethods") then
        let! a := y_texts v in Ok {| cr_credentials := cr_credentials x; cr_origins := cr_origins x; cr_methods := Some a; cr_headers := cr_headers x; cr_expose := cr_expose x; cr_age := cr_age x |}
      else if text_eqb key (chars "allowHeaders") then
        let! a := y_texts v in Ok {| cr_credentials := cr_credentials x; cr_origins := cr_origins x; cr_methods := cr_methods x; cr_headers := Some a; cr_expose := cr_expose x; cr_age := cr_age x |}
      else if text_eqb key (chars "exposeHeaders") then
        let! a := y_texts v in Ok {| cr_credentials := cr_credentials x; cr_origins := cr_origins x; cr_methods := cr_methods x; cr_headers := cr_headers x; cr_expose := Some a; cr_age := cr_age x |}
      else if text_eqb key (chars "maxAge") then
        let! a := y_int F k v in Ok {| cr_credentials := cr_credentials x; cr_origins := cr_origins x; cr_methods := cr_methods x; cr_headers := cr_headers x; cr_expose := cr_expose x; cr_age := Some a |}
      else Ok x
  end.
(** blueprint_with_subs.rs 147-161 (derived) *)
Definition empty_cors : cors := {| cr_credentials := None; cr_origins := None; cr_methods := None; cr_headers := None; cr_expose := None; cr_age := None |}.
(** 979-1031 *)
Definition y_cors (m : list (option text * yaml)) : outcome yerr cors :=
  foldo cors_entry empty_cors m.
(** blueprint_with_subs.rs 140-145 *)
Inductive cors_choice := CorsText (ps : list part) | CorsConfig (c : cors).
(** 919-932 *)
Definition y_cors_choice (v : yaml) : outcome yerr cors_choice :=
  match v with YStr t => omap CorsText (subs k t) | YMap m => omap CorsConfig (y_cors m) | _ => Err YFormat end.
(** 1373-1390 and 1413-1430 *)
Definition y_plain_protocol (v : yaml) : outcome yerr node :=
  match v with
  | YStr t => if text_eqb t (chars "http") then Ok (NScalar F (SStr F (chars "http")))
              else if text_eqb t (chars "websocket") then Ok (NScalar F (SStr F (chars "websocket")))
              else Err YFormat
  | _ => Err YFormat
  end.
(** blueprint_with_subs.rs 186-191 *)
Record base := { bp_protocol : node; bp_path : list part }.
(** 1410-1442, one entry *)
Definition base_entry (x : base) (e : option text * yaml) : outcome yerr base :=
  match e with
  | (None, _) => Ok x
  | (Some key, v) =>
      if text_eqb key (chars "protocol") then
        let! a := y_plain_protocol v in Ok {| bp_protocol := a; bp_path := bp_path x |}
      else if text_eqb key (chars "basePath") then
        let! a := y_text k v in Ok {| bp_protocol := bp_protocol x; bp_path := a |}
      else Ok x
  end.
(** blueprint_with_subs.rs 186-191 (derived) *)
Definition empty_base : base := {| bp_protocol := NNull F; bp_path := [] |}.
(** 1406-1444 *)
Definition y_base (m : list (option text * yaml)) : outcome yerr base :=
  foldo base_entry empty_base m.
(** blueprint_with_subs.rs 180-184 *)
Inductive base_path := BaseText (ps : list part) | BaseConfig (b : base).
(** 1076-1093 *)
Definition y_base_path (v : yaml) : outcome yerr base_path :=
  match v with YStr t => omap BaseText (subs k t) | YMap m => omap BaseConfig (y_base m) | _ => Err YFormat end.
(** blueprint_with_subs.rs 163-177 *)
Record domain := { dm_name : list part; dm_paths : list base_path; dm_normalize : option node; dm_certificate : list part; dm_policy : option (list part) }.
(** 1060-1133, one entry *)
Definition domain_entry (x : domain) (e : option text * yaml) : outcome yerr domain :=
  match e with
  | (None, _) => Ok x
  | (Some key, v) =>
      if text_eqb key (chars "domainName") then
        let! a := y_text k v in Ok {| dm_name := a; dm_paths := dm_paths x; dm_normalize := dm_normalize x; dm_certificate := dm_certificate x; dm_policy := dm_policy x |}
      else if text_eqb key (chars "basePaths") then
        let! a := y_seq y_base_path v in Ok {| dm_name := dm_name x; dm_paths := a; dm_normalize := dm_normalize x; dm_certificate := dm_certificate x; dm_policy := dm_policy x |}
      else if text_eqb key (chars "normalizeBasePath") then
        let! a := y_bool F k v in Ok {| dm_name := dm_name x; dm_paths := dm_paths x; dm_normalize := Some a; dm_certificate := dm_certificate x; dm_policy := dm_policy x |}
      else if text_eqb key (chars "certificateId") then
        let! a := y_text k v in Ok {| dm_name := dm_name x; dm_paths := dm_paths x; dm_normalize := dm_normalize x; dm_certificate := a; dm_policy := dm_policy x |}
      else if text_eqb key (chars "securityPolicy") then
        let! a := y_text k v in Ok {| dm_name := dm_name x; dm_paths := dm_paths x; dm_normalize := dm_normalize x; dm_certificate := dm_certificate x; dm_policy := Some a |}
      else Ok x
  end.
(** blueprint_with_subs.rs 163-177 (derived) *)
Definition empty_domain : domain := {| dm_name := []; dm_paths := []; dm_normalize := None; dm_certificate := []; dm_policy := None |}.
(** 1056-1156 *)
Definition y_domain (m : list (option text * yaml)) : outcome yerr domain :=
  let! x := foldo domain_entry empty_domain m in
  if parts_empty (dm_name x) || (match dm_paths x with [] => true | _ => false end) || parts_empty (dm_certificate x) then Err YFormat else Ok x.
(** blueprint_with_subs.rs 221-225 *)
Record source := { vs_protocol : node; vs_source : list part }.
(** 1370-1402, one entry *)
Definition source_entry (x : source) (e : option text * yaml) : outcome yerr source :=
  match e with
  | (None, _) => Ok x
  | (Some key, v) =>
      if text_eqb key (chars "protocol") then
        let! a := y_plain_protocol v in Ok {| vs_protocol := a; vs_source := vs_source x |}
      else if text_eqb key (chars "source") then
        let! a := y_text k v in Ok {| vs_protocol := vs_protocol x; vs_source := a |}
      else Ok x
  end.
(** blueprint_with_subs.rs 221-225 (derived) *)
Definition empty_source : source := {| vs_protocol := NNull F; vs_source := [] |}.
(** 1365-1404 *)
Definition y_source (m : list (option text * yaml)) : outcome yerr source :=
  foldo source_entry empty_source m.
(** blueprint_with_subs.rs 215-219 *)
Inductive value_source := SourceText (ps : list part) | SourceConfig (s : source).
(** 1315-1329 *)
Definition y_value_source (v : yaml) : outcome yerr value_source :=
  match v with YMap m => omap SourceConfig (y_source m) | YStr t => omap SourceText (subs k t) | _ => Err YFormat end.
(** 1446-1460 *)
Definition y_guard_type (v : yaml) : outcome yerr (list part) :=
  match v with
  | YStr t => if text_eqb t (chars "jwt") then Ok [Lit (chars "jwt")]
              else if text_eqb t (chars "custom") then Ok [Lit (chars "custom")]
              else Err YFormat
  | _ => Err YFormat
  end.
(** blueprint_with_subs.rs 201-212 *)
Record guard := { gd_type : list part; gd_issuer : option (list part); gd_token : option value_source; gd_audience : option (list (list part)) }.
(** 1293-1353, one entry *)
Definition guard_entry (x : guard) (e : option text * yaml) : outcome yerr guard :=
  match e with
  | (None, _) => Ok x
  | (Some key, v) =>
      if text_eqb key (chars "type") then
        let! a := y_guard_type v in Ok {| gd_type := a; gd_issuer := gd_issuer x; gd_token := gd_token x; gd_audience := gd_audience x |}
      else if text_eqb key (chars "issuer") then
        let! a := y_text k v in Ok {| gd_type := gd_type x; gd_issuer := Some a; gd_token := gd_token x; gd_audience := gd_audience x |}
      else if text_eqb key (chars "tokenSource") then
        let! a := y_value_source v in Ok {| gd_type := gd_type x; gd_issuer := gd_issuer x; gd_token := Some a; gd_audience := gd_audience x |}
      else if text_eqb key (chars "audience") then
        let! a := y_texts v in Ok {| gd_type := gd_type x; gd_issuer := gd_issuer x; gd_token := gd_token x; gd_audience := Some a |}
      else Ok x
  end.
(** blueprint_with_subs.rs 201-212 (derived) *)
Definition empty_guard : guard := {| gd_type := []; gd_issuer := None; gd_token := None; gd_audience := None |}.
(** 1289-1363 *)
Definition y_guard (m : list (option text * yaml)) : outcome yerr guard :=
  let! x := foldo guard_entry empty_guard m in
  if parts_empty (gd_type x) then Err YFormat else Ok x.
(** blueprint_with_subs.rs 193-199 *)
Record auth := { au_default : option (list part); au_guards : list (text * guard) }.
(** 1238-1270, with the guards of 1272-1287 *)
Definition y_auth (m : list (option text * yaml)) : outcome yerr auth :=
  let! g := need_field (chars "guards") (y_mapping (y_named y_guard)) m in
  let! d := may_field (chars "defaultGuard") (y_text k) m in
  Ok {| au_default := d; au_guards := g |}.
(** 1196-1236 *)
Definition y_websocket (m : list (option text * yaml)) : outcome yerr node :=
  omap (NMap F) (collect (fun e => match e with
    | (Some key, v) =>
        if text_eqb key (chars "routeKey") then let! a := y_text k v in Ok (Some (chars "routeKey", NSub F a))
        else if text_eqb key (chars "authStrategy") then let! a := y_text k v in Ok (Some (chars "authStrategy", NSub F a))
        else Ok None
    | (None, _) => Ok None
    end) m).
(** 1158-1194 *)
Definition y_protocol (v : yaml) : outcome yerr node :=
  match v with
  | YMap m => omap (fun n => NMap F [(chars "websocketConfig", n)]) (need_field (chars "websocketConfig") (y_mapping y_websocket) m)
  | _ => y_plain_protocol v
  end.
(** blueprint_with_subs.rs 126-138 *)
Record api := { ap_protocols : list node; ap_cors : option cors_choice; ap_domain : option domain; ap_auth : option auth; ap_tracing : option node }.
(** 900-968, one entry *)
Definition api_entry (x : api) (e : option text * yaml) : outcome yerr api :=
  match e with
  | (None, _) => Ok x
  | (Some key, v) =>
      if text_eqb key (chars "protocols") then
        let! a := y_seq y_protocol v in Ok {| ap_protocols := a; ap_cors := ap_cors x; ap_domain := ap_domain x; ap_auth := ap_auth x; ap_tracing := ap_tracing x |}
      else if text_eqb key (chars "cors") then
        match v with
        | YStr _ | YMap _ => let! a := y_cors_choice v in Ok {| ap_protocols := ap_protocols x; ap_cors := Some a; ap_domain := ap_domain x; ap_auth := ap_auth x; ap_tracing := ap_tracing x |}
        | _ => Ok x
        end
      else if text_eqb key (chars "domain") then
        let! a := y_mapping y_domain v in Ok {| ap_protocols := ap_protocols x; ap_cors := ap_cors x; ap_domain := Some a; ap_auth := ap_auth x; ap_tracing := ap_tracing x |}
      else if text_eqb key (chars "auth") then
        let! a := y_mapping y_auth v in Ok {| ap_protocols := ap_protocols x; ap_cors := ap_cors x; ap_domain := ap_domain x; ap_auth := Some a; ap_tracing := ap_tracing x |}
      else if text_eqb key (chars "tracingEnabled") then
        let! a := y_bool F k v in Ok {| ap_protocols := ap_protocols x; ap_cors := ap_cors x; ap_domain := ap_domain x; ap_auth := ap_auth x; ap_tracing := Some a |}
      else Ok x
  end.
(** blueprint_with_subs.rs 126-138 (derived) *)
Definition empty_api : api := {| ap_protocols := []; ap_cors := None; ap_domain := None; ap_auth := None; ap_tracing := None |}.
(** 896-977 *)
Definition y_api (m : list (option text * yaml)) : outcome yerr api :=
  let! x := foldo api_entry empty_api m in
  if match ap_protocols x with [] => true | _ => false end then Err YFormat else Ok x.

(** blueprint_with_subs.rs 441-447 *)
Record config := { cf_name : option (list part); cf_plaintext : option (list (list part)) }.
(** 1563-1589, one entry *)
Definition config_entry (x : config) (e : option text * yaml) : outcome yerr config :=
  match e with
  | (None, _) => Ok x
  | (Some key, v) =>
      if text_eqb key (chars "name") then
        let! a := y_text k v in Ok {| cf_name := Some a; cf_plaintext := cf_plaintext x |}
      else if text_eqb key (chars "plaintext") then
        let! a := y_texts v in Ok {| cf_name := cf_name x; cf_plaintext := Some a |}
      else Ok x
  end.
(** blueprint_with_subs.rs 441-447 (derived) *)
Definition empty_config : config := {| cf_name := None; cf_plaintext := None |}.
(** 1559-1591 *)
Definition y_config (m : list (option text * yaml)) : outcome yerr config :=
  foldo config_entry empty_config m.
(** blueprint_with_subs.rs 449-453 *)
Record bucket := { bk_name : option (list part) }.
(** 1597-1609, one entry *)
Definition bucket_entry (x : bucket) (e : option text * yaml) : outcome yerr bucket :=
  match e with
  | (None, _) => Ok x
  | (Some key, v) =>
      if text_eqb key (chars "name") then
        let! a := y_text k v in Ok {| bk_name := Some a |}
      else Ok x
  end.
(** blueprint_with_subs.rs 449-453 (derived) *)
Definition empty_bucket : bucket := {| bk_name := None |}.
(** 1593-1611 *)
Definition y_bucket (m : list (option text * yaml)) : outcome yerr bucket :=
  foldo bucket_entry empty_bucket m.
(** blueprint_with_subs.rs 455-470 *)
Record topic := { tp_name : option (list part); tp_fifo : option node }.
(** 1617-1647, one entry *)
Definition topic_entry (x : topic) (e : option text * yaml) : outcome yerr topic :=
  match e with
  | (None, _) => Ok x
  | (Some key, v) =>
      if text_eqb key (chars "name") then
        let! a := y_text k v in Ok {| tp_name := Some a; tp_fifo := tp_fifo x |}
      else if text_eqb key (chars "fifo") then
        let! a := y_bool F k v in Ok {| tp_name := tp_name x; tp_fifo := Some a |}
      else Ok x
  end.
(** blueprint_with_subs.rs 463-470 *)
Definition empty_topic : topic := {| tp_name := None; tp_fifo := Some (NScalar F (SBool F false)) |}.
(** 1613-1649 *)
Definition y_topic (m : list (option text * yaml)) : outcome yerr topic :=
  foldo topic_entry empty_topic m.
(** blueprint_with_subs.rs 472-491 *)
Record queue := { qu_name : option (list part); qu_fifo : option node; qu_visibility : option node }.
(** 1655-1699, one entry *)
Definition queue_entry (x : queue) (e : option text * yaml) : outcome yerr queue :=
  match e with
  | (None, _) => Ok x
  | (Some key, v) =>
      if text_eqb key (chars "name") then
        let! a := y_text k v in Ok {| qu_name := Some a; qu_fifo := qu_fifo x; qu_visibility := qu_visibility x |}
      else if text_eqb key (chars "fifo") then
        let! a := y_bool F k v in Ok {| qu_name := qu_name x; qu_fifo := Some a; qu_visibility := qu_visibility x |}
      else if text_eqb key (chars "visibilityTimeout") then
        let! a := y_int F k v in Ok {| qu_name := qu_name x; qu_fifo := qu_fifo x; qu_visibility := Some a |}
      else Ok x
  end.
(** blueprint_with_subs.rs 483-491 *)
Definition empty_queue : queue := {| qu_name := None; qu_fifo := Some (NScalar F (SBool F false)); qu_visibility := None |}.
(** 1651-1701 *)
Definition y_queue (m : list (option text * yaml)) : outcome yerr queue :=
  foldo queue_entry empty_queue m.

(** 1499-1513 *)
Definition y_labels (m : list (option text * yaml)) : outcome yerr (list (text * text)) :=
  collect (fun e => match e with (Some key, v) => let! a := y_string v in Ok (Some (key, a)) | (None, _) => Ok None end) m.
(** blueprint_with_subs.rs 51-59 *)
Record metadata := { me_name : list part; me_annotations : option (list (text * node)); me_labels : option (list (text * text)) }.
(** 1466-1514, one entry *)
Definition metadata_entry (x : metadata) (e : option text * yaml) : outcome yerr metadata :=
  match e with
  | (None, _) => Ok x
  | (Some key, v) =>
      if text_eqb key (chars "displayName") then
        let! a := y_text k v in Ok {| me_name := a; me_annotations := me_annotations x; me_labels := me_labels x |}
      else if text_eqb key (chars "annotations") then
        match v with
        | YMap _ => let! a := y_mapping (y_payload F parse_f64 k) v in Ok {| me_name := me_name x; me_annotations := Some a; me_labels := me_labels x |}
        | _ => Ok x
        end
      else if text_eqb key (chars "labels") then
        match v with
        | YMap _ => let! a := y_mapping y_labels v in Ok {| me_name := me_name x; me_annotations := me_annotations x; me_labels := Some a |}
        | _ => Ok x
        end
      else Ok x
  end.
(** blueprint_with_subs.rs 51-59 (derived) *)
Definition empty_metadata : metadata := {| me_name := []; me_annotations := None; me_labels := None |}.
(** 1462-1522 *)
Definition y_metadata (m : list (option text * yaml)) : outcome yerr metadata :=
  let! x := foldo metadata_entry empty_metadata m in
  if parts_empty (me_name x) then Err YFormat else Ok x.
(** blueprint.rs 210-214 and parse_yaml.rs 1524-1557 *)
Definition y_selector (m : list (option text * yaml)) : outcome yerr (list (text * text)) :=
  need_field (chars "byLabel") (y_mapping (fun m' => Ok (flat_map (fun e => match e with (Some key, YStr t) => [(key, t)] | _ => [] end) m'))) m.
(** 1703-1719; the metadata of a blueprint holds the shared handler configuration only *)
Definition blueprint_metadata_entry (x : option shared) (e : option text * yaml) : outcome yerr (option shared) :=
  match e with
  | (None, _) => Ok x
  | (Some key, v) =>
      if text_eqb key (chars "sharedHandlerConfig") then
        match v with YMap m => let! a := y_shared m in Ok (Some a) | _ => Ok x end
      else Ok x
  end.
(** parse_yaml.rs 1703-1719 *)
Definition y_blueprint_metadata (m : list (option text * yaml)) : outcome yerr (option shared) := foldo blueprint_metadata_entry None m.

(** blueprint_with_subs.rs 87-101 *)
Inductive spec :=
| PHandler (h : handler) | PApi (a : api) | PConsumer (c : consumer) | PSchedule (s : list part) | PShared (h : shared)
| PWorkflow (w : smachine F) | PConfig (c : config) | PBucket (b : bucket) | PTopic (t : topic) | PQueue (q : queue).
(** 316-352 *)
Definition y_spec (ty : rtype) (m : list (option text * yaml)) : outcome yerr spec :=
  match ty with
  | TApi => omap PApi (y_api m)
  | TConsumer => omap PConsumer (y_consumer m)
  | TSchedule => omap PSchedule (y_schedule m)
  | THandler => omap PHandler (y_handler m)
  | THandlerConfig => omap PShared (y_shared m)
  | TWorkflow => omap PWorkflow (y_workflow F parse_f64 k m)
  | TConfig => omap PConfig (y_config m)
  | TBucket => omap PBucket (y_bucket m)
  | TTopic => omap PTopic (y_topic m)
  | TQueue => omap PQueue (y_queue m)
  end.
End Params.
