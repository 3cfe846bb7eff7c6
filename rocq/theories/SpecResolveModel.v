(** Resolving the substitutions of the specs and the metadata of resources,
    libs/runtime/blueprint-config-parser/src/resolve_substitutions.rs 110-181, 222-493, 970-1608,
    1830-1852.  Error messages and the paths of fields in them are left out. *)
From Verif Require Import Base Chars SubstModel ResolveModel WfYamlModel WfResolveModel SpecYamlModel.
Local Open Scope list_scope.

(** a [for] loop with [?] that inserts one result under each key; a [HashMap] is a list of entries
    with distinct keys, in iteration order. (resolve_substitutions.rs 110-493) *)
Definition nameo {A E B} (f : A -> outcome E B) : list (text * A) -> outcome E (list (text * B)) :=
  mapo (fun e => let! b := f (snd e) in Ok (fst e, b)).
(** [HashMap::get]. (resolve_substitutions.rs 1830-1852) *)
Fixpoint nget {A} (key : text) (m : list (text * A)) : option A :=
  match m with [] => None | (k, v) :: m' => if text_eqb k key then Some v else nget key m' end.

(** blueprint.rs 357-364 *)
Inductive strategy := AuthMessage | Connect.
(** blueprint.rs 334-355 *)
Inductive protocol := Http | WebSocket | WebSocketConfig (key : option text) (how : option strategy).
(** blueprint.rs 438-445 *)
Inductive policy := Tls10 | Tls12.
(** blueprint.rs 483-495 *)
Inductive guard_kind := Jwt | Custom.
(** blueprint.rs 586-595 *)
Inductive storage_event := ObjectCreated | ObjectDeleted | ObjectMetadataUpdated.

Section Params.
Variable F : Type.
Variable parse_f64 : text -> option F.
Variable env : text -> option text.

Notation str := (resolve_to_string env).
Notation to_scalar := (node_to_scalar F parse_f64 env).
Notation to_int := (node_to_int F parse_f64 env).
Notation to_bool := (node_to_bool F parse_f64 env).
Notation to_string := (node_to_string F parse_f64 env).

(** 1454-1463 and 1467-1474 *)
Definition protocol_name (t : text) : outcome rerr protocol :=
  if text_eqb t (chars "http") then Ok Http else if text_eqb t (chars "websocket") then Ok WebSocket else Err ParseErr.
(** 1538-1547 and 1554-1561 *)
Definition strategy_name (t : text) : outcome rerr strategy :=
  if text_eqb t (chars "authMessage") then Ok AuthMessage else if text_eqb t (chars "connect") then Ok Connect else Err ParseErr.
(** 1532-1568 *)
Definition resolve_strategy (n : node F) : outcome rerr strategy :=
  match n with
  | NScalar _ (SStr _ t) => strategy_name t
  | NSub _ ps => let! t := str ps in strategy_name t
  | _ => Err ParseErr
  end.
(** 1498-1530 *)
Definition resolve_websocket (n : node F) : outcome rerr protocol :=
  match n with
  | NMap _ m =>
      let! a1 := opto to_string (nget (chars "routeKey") m) in
      let! a2 := opto resolve_strategy (nget (chars "authStrategy") m) in
      Ok (WebSocketConfig a1 a2)
  | _ => Err ParseErr
  end.
(** 1450-1496 *)
Definition resolve_protocol (n : node F) : outcome rerr protocol :=
  match n with
  | NScalar _ (SStr _ t) => protocol_name t
  | NSub _ ps => let! t := str ps in protocol_name t
  | NMap _ m => match nget (chars "websocketConfig") m with Some w => resolve_websocket w | None => Err ParseErr end
  | _ => Err ParseErr
  end.
(** 1314-1334 with a policy present *)
Definition resolve_policy (ps : list part) : outcome rerr policy :=
  let! t := str ps in
  if text_eqb t (chars "TLS_1_0") then Ok Tls10 else if text_eqb t (chars "TLS_1_2") then Ok Tls12 else Err ParseErr.
(** 1212-1227 *)
Definition resolve_guard_type (ps : list part) : outcome rerr guard_kind :=
  let! t := str ps in
  if text_eqb t (chars "jwt") then Ok Jwt else if text_eqb t (chars "custom") then Ok Custom else Err ParseErr.
(** 1134-1150 *)
Definition resolve_storage_event (ps : list part) : outcome rerr storage_event :=
  let! t := str ps in
  if text_eqb t (chars "created") then Ok ObjectCreated
  else if text_eqb t (chars "deleted") then Ok ObjectDeleted
  else if text_eqb t (chars "metadataUpdated") then Ok ObjectMetadataUpdated
  else Err ParseErr.

(** blueprint.rs 756-775 *)
Record rshared := { rhc_location : option text; rhc_runtime : option text; rhc_memory : option Z; rhc_timeout : option Z; rhc_tracing : option bool; rhc_env : option (list (text * text)) }.
(** 144-181 *)
Definition resolve_shared (x : shared F) : outcome rerr rshared :=
  let! a1 := opto str (hc_location F x) in
  let! a2 := opto str (hc_runtime F x) in
  let! a3 := opto to_int (hc_memory F x) in
  let! a4 := opto to_int (hc_timeout F x) in
  let! a5 := opto to_bool (hc_tracing F x) in
  let! a6 := opto (nameo str) (hc_env F x) in
  Ok {| rhc_location := a1; rhc_runtime := a2; rhc_memory := a3; rhc_timeout := a4; rhc_tracing := a5; rhc_env := a6 |}.
(** blueprint.rs 236-259 *)
Record rhandler := { rha_name : option text; rha_location : option text; rha_handler : text; rha_runtime : option text; rha_memory : option Z; rha_timeout : option Z; rha_tracing : option bool; rha_env : option (list (text * text)) }.
(** 278-325 *)
Definition resolve_handler (x : handler F) : outcome rerr rhandler :=
  let! a1 := opto str (ha_name F x) in
  let! a2 := opto str (ha_location F x) in
  let! a3 := str (ha_handler F x) in
  let! a4 := opto str (ha_runtime F x) in
  let! a5 := opto to_int (ha_memory F x) in
  let! a6 := opto to_int (ha_timeout F x) in
  let! a7 := opto to_bool (ha_tracing F x) in
  let! a8 := opto (nameo str) (ha_env F x) in
  Ok {| rha_name := a1; rha_location := a2; rha_handler := a3; rha_runtime := a4; rha_memory := a5; rha_timeout := a6; rha_tracing := a7; rha_env := a8 |}.

(** blueprint.rs 570-575, 598-612, 626-640 *)
Record rstorage := { ros_bucket : text; ros_events : list storage_event }.
(** blueprint.rs 597-640: the two stream sources, alike *)
Record rstream := { rst_id : text; rst_batch : option Z; rst_partial : option bool; rst_beginning : option bool }.
(** blueprint.rs 561-567, 522-528 *)
Inductive revent_source := RFromStorage (s : rstorage) | RFromDatabase (s : rstream) | RFromData (s : rstream).
(** blueprint.rs 521-558 *)
Definition revent : Type := (event_type * revent_source).
(** 1037-1056, with the list of 1120-1132 *)
Definition resolve_storage (x : storage) : outcome rerr rstorage :=
  let! b := str (os_bucket x) in
  let! e := mapo resolve_storage_event (os_events x) in
  Ok {| ros_bucket := b; ros_events := e |}.
(** 1058-1087 and 1089-1118 *)
Definition resolve_stream (x : stream F) : outcome rerr rstream :=
  let! b := opto to_int (so_batch F (st_options F x)) in
  let! i := str (st_id F x) in
  let! p := opto to_bool (so_partial F (st_options F x)) in
  let! s := opto to_bool (so_beginning F (st_options F x)) in
  Ok {| rst_id := i; rst_batch := b; rst_partial := p; rst_beginning := s |}.
(** 1007-1035 *)
Definition resolve_event_source (x : event_source F) : outcome rerr revent_source :=
  match x with
  | FromStorage _ s => omap RFromStorage (resolve_storage s)
  | FromDatabase _ s => omap RFromDatabase (resolve_stream s)
  | FromData _ s => omap RFromData (resolve_stream s)
  end.
(** 992-1005 *)
Definition resolve_event (x : event F) : outcome rerr revent :=
  let! s := resolve_event_source (snd x) in Ok (fst x, s).
(** with the events of 970-990 *)
(** blueprint.rs 293-319 *)
Record rconsumer := { rco_source : option text; rco_batch : option Z; rco_visibility : option Z; rco_wait : option Z; rco_partial : option bool; rco_routing : option text; rco_events : option (list (text * revent)) }.
(** 361-403 *)
Definition resolve_consumer (x : consumer F) : outcome rerr rconsumer :=
  let! a1 := opto str (co_source F x) in
  let! a2 := opto to_int (co_batch F x) in
  let! a3 := opto to_int (co_visibility F x) in
  let! a4 := opto to_int (co_wait F x) in
  let! a5 := opto to_bool (co_partial F x) in
  let! a6 := opto str (co_routing F x) in
  let! a7 := opto (nameo resolve_event) (co_events F x) in
  Ok {| rco_source := a1; rco_batch := a2; rco_visibility := a3; rco_wait := a4; rco_partial := a5; rco_routing := a6; rco_events := a7 |}.

(** blueprint.rs 376-391 *)
Record rcors := { rcr_credentials : option bool; rcr_origins : option (list text); rcr_methods : option (list text); rcr_headers : option (list text); rcr_expose : option (list text); rcr_age : option Z }.
(** 1399-1436 *)
Definition resolve_cors (x : cors F) : outcome rerr rcors :=
  let! a1 := opto to_bool (cr_credentials F x) in
  let! a2 := opto (mapo str) (cr_origins F x) in
  let! a3 := opto (mapo str) (cr_methods F x) in
  let! a4 := opto (mapo str) (cr_headers F x) in
  let! a5 := opto (mapo str) (cr_expose F x) in
  let! a6 := opto to_int (cr_age F x) in
  Ok {| rcr_credentials := a1; rcr_origins := a2; rcr_methods := a3; rcr_headers := a4; rcr_expose := a5; rcr_age := a6 |}.
(** blueprint.rs 366-373 *)
Inductive rcors_choice := RCorsText (t : text) | RCorsConfig (c : rcors).
(** 1379-1397 with a value present *)
Definition resolve_cors_choice (x : cors_choice F) : outcome rerr rcors_choice :=
  match x with CorsText _ ps => omap RCorsText (str ps) | CorsConfig _ c => omap RCorsConfig (resolve_cors c) end.
(** blueprint.rs 421-427 *)
Record rbase := { rbp_protocol : protocol; rbp_path : text }.
(** 1360-1377 *)
Definition resolve_base (x : base F) : outcome rerr rbase :=
  let! a1 := resolve_protocol (bp_protocol F x) in
  let! a2 := str (bp_path F x) in
  Ok {| rbp_protocol := a1; rbp_path := a2 |}.
(** blueprint.rs 412-419 *)
Inductive rbase_path := RBaseText (t : text) | RBaseConfig (b : rbase).
(** 1336-1358, one base path *)
Definition resolve_base_path (x : base_path F) : outcome rerr rbase_path :=
  match x with BaseText _ ps => omap RBaseText (str ps) | BaseConfig _ b => omap RBaseConfig (resolve_base b) end.
(** blueprint.rs 393-410 *)
Record rdomain := { rdm_name : text; rdm_paths : list rbase_path; rdm_normalize : option bool; rdm_certificate : text; rdm_policy : option policy }.
(** 1277-1312 *)
Definition resolve_domain (x : domain F) : outcome rerr rdomain :=
  let! a1 := str (dm_name F x) in
  let! a2 := mapo resolve_base_path (dm_paths F x) in
  let! a3 := opto to_bool (dm_normalize F x) in
  let! a4 := str (dm_certificate F x) in
  let! a5 := opto resolve_policy (dm_policy F x) in
  Ok {| rdm_name := a1; rdm_paths := a2; rdm_normalize := a3; rdm_certificate := a4; rdm_policy := a5 |}.
(** blueprint.rs 505-510 *)
Record rsource := { rvs_protocol : protocol; rvs_source : text }.
(** 1258-1275 *)
Definition resolve_source (x : source F) : outcome rerr rsource :=
  let! a1 := resolve_protocol (vs_protocol F x) in
  let! a2 := str (vs_source F x) in
  Ok {| rvs_protocol := a1; rvs_source := a2 |}.
(** blueprint.rs 497-502 *)
Inductive rvalue_source := RSourceText (t : text) | RSourceConfig (s : rsource).
(** 1229-1256 with a value present *)
Definition resolve_value_source (x : value_source F) : outcome rerr rvalue_source :=
  match x with SourceText _ ps => omap RSourceText (str ps) | SourceConfig _ s => omap RSourceConfig (resolve_source s) end.
(** blueprint.rs 457-469 *)
Record rguard := { rgd_type : guard_kind; rgd_issuer : option text; rgd_token : option rvalue_source; rgd_audience : option (list text) }.
(** 1187-1210 *)
Definition resolve_guard (x : guard F) : outcome rerr rguard :=
  let! a1 := resolve_guard_type (gd_type F x) in
  let! a2 := opto str (gd_issuer F x) in
  let! a3 := opto resolve_value_source (gd_token F x) in
  let! a4 := opto (mapo str) (gd_audience F x) in
  Ok {| rgd_type := a1; rgd_issuer := a2; rgd_token := a3; rgd_audience := a4 |}.
(** blueprint.rs 447-454 *)
Record rauth := { rau_default : option text; rau_guards : list (text * rguard) }.
(** 1152-1172 with a value present, and the guards of 1174-1185 *)
Definition resolve_auth (x : auth F) : outcome rerr rauth :=
  let! d := opto str (au_default F x) in
  let! g := nameo resolve_guard (au_guards F x) in
  Ok {| rau_default := d; rau_guards := g |}.
(** blueprint.rs 277-292 *)
Record rapi := { rap_protocols : list protocol; rap_cors : option rcors_choice; rap_domain : option rdomain; rap_auth : option rauth; rap_tracing : option bool }.
(** 327-359 *)
Definition resolve_api (x : api F) : outcome rerr rapi :=
  let! a1 := mapo resolve_protocol (ap_protocols F x) in
  let! a2 := opto resolve_cors_choice (ap_cors F x) in
  let! a3 := opto resolve_domain (ap_domain F x) in
  let! a4 := opto resolve_auth (ap_auth F x) in
  let! a5 := opto to_bool (ap_tracing F x) in
  Ok {| rap_protocols := a1; rap_cors := a2; rap_domain := a3; rap_auth := a4; rap_tracing := a5 |}.

(** blueprint.rs 654-661 *)
Record rconfig := { rcf_name : option text; rcf_plaintext : option (list text) }.
(** 419-436 *)
Definition resolve_config (x : config) : outcome rerr rconfig :=
  let! a1 := opto str (cf_name x) in
  let! a2 := opto (mapo str) (cf_plaintext x) in
  Ok {| rcf_name := a1; rcf_plaintext := a2 |}.
(** blueprint.rs 674-679 *)
Record rbucket := { rbk_name : option text }.
(** 438-450 *)
Definition resolve_bucket (x : bucket) : outcome rerr rbucket :=
  let! a1 := opto str (bk_name x) in
  Ok {| rbk_name := a1 |}.
(** blueprint.rs 684-692 *)
Record rtopic := { rtp_name : option text; rtp_fifo : option bool }.
(** 452-469 *)
Definition resolve_topic (x : topic F) : outcome rerr rtopic :=
  let! a1 := opto str (tp_name F x) in
  let! a2 := opto to_bool (tp_fifo F x) in
  Ok {| rtp_name := a1; rtp_fifo := a2 |}.
(** blueprint.rs 709-722 *)
Record rqueue := { rqu_name : option text; rqu_fifo : option bool; rqu_visibility : option Z }.
(** 471-493 *)
Definition resolve_queue (x : queue F) : outcome rerr rqueue :=
  let! a1 := opto str (qu_name F x) in
  let! a2 := opto to_bool (qu_fifo F x) in
  let! a3 := opto to_int (qu_visibility F x) in
  Ok {| rqu_name := a1; rqu_fifo := a2; rqu_visibility := a3 |}.
(** blueprint.rs 187-196 *)
Record rmetadata := { rme_name : text; rme_annotations : option (list (text * scalar F)); rme_labels : option (list (text * text)) }.
(** 1570-1608 *)
Definition resolve_metadata (x : metadata F) : outcome rerr rmetadata :=
  let! a1 := str (me_name F x) in
  let! a2 := opto (nameo to_scalar) (me_annotations F x) in
  Ok {| rme_name := a1; rme_annotations := a2; rme_labels := me_labels F x |}.

(** blueprint.rs 220-234 *)
Inductive rspec :=
| RHandler (h : rhandler) | RApi (a : rapi) | RConsumer (c : rconsumer) | RSchedule (s : text) | RShared (h : rshared)
| RWorkflow (w : rmachine F) | RConfig (c : rconfig) | RBucket (b : rbucket) | RTopic (t : rtopic) | RQueue (q : rqueue).
(** 222-276, with the schedule of 405-417 *)
Definition resolve_spec (s : spec F) : outcome rerr rspec :=
  match s with
  | PHandler _ x => omap RHandler (resolve_handler x)
  | PApi _ x => omap RApi (resolve_api x)
  | PConsumer _ x => omap RConsumer (resolve_consumer x)
  | PSchedule _ x => omap RSchedule (str x)
  | PShared _ x => omap RShared (resolve_shared x)
  | PWorkflow _ x => omap RWorkflow (resolve_workflow F parse_f64 env x)
  | PConfig _ x => omap RConfig (resolve_config x)
  | PBucket _ x => omap RBucket (resolve_bucket x)
  | PTopic _ x => omap RTopic (resolve_topic x)
  | PQueue _ x => omap RQueue (resolve_queue x)
  end.
(** 110-142 with metadata present *)
Definition resolve_blueprint_metadata (o : option (shared F)) : outcome rerr (option rshared) := opto resolve_shared o.
End Params.
