(** Vocabulary for C116 to C118: the spec that a spec with references stands for, given the
    environment. *)
From Verif Require Import Base Chars SubstModel ResolveModel ResolveSpec WfYamlModel WfResolveModel WfResolveSpec SpecYamlModel SpecResolveModel.
Local Open Scope list_scope.

(** The names of the choices *)
Definition protocol_names : list (text * protocol) := [(chars "http", Http); (chars "websocket", WebSocket)].
Definition strategy_names : list (text * strategy) := [(chars "authMessage", AuthMessage); (chars "connect", Connect)].
Definition policy_names : list (text * policy) := [(chars "TLS_1_0", Tls10); (chars "TLS_1_2", Tls12)].
Definition guard_names : list (text * guard_kind) := [(chars "jwt", Jwt); (chars "custom", Custom)].
Definition storage_event_names : list (text * storage_event) :=
  [(chars "created", ObjectCreated); (chars "deleted", ObjectDeleted); (chars "metadataUpdated", ObjectMetadataUpdated)].

(** The first value under a key, and an optional field *)
Definition holds {A} (m : list (text * A)) (key : text) (v : A) : Prop :=
  exists pre post, m = pre ++ (key, v) :: post /\ ~ In key (map fst pre).
Definition field_is {A B} (m : list (text * A)) (key : text) (R : A -> B -> Prop) (o : option B) : Prop :=
  (exists v b, holds m key v /\ R v b /\ o = Some b) \/ (~ In key (map fst m) /\ o = None).

Section Params.
Variable F : Type.
Variable parse_f64 : text -> option F.
Variable env : text -> option text.
Notation txt := (parts_text env).
Notation scalar_is := (scalar_is F parse_f64 env).
Notation int_is := (int_is F parse_f64 env).
Notation bool_is := (bool_is F parse_f64 env).

(** A choice: a text, written down or with references, that names it *)
Definition choice_is {C} (names : list (text * C)) (ps : list part) (c : C) : Prop := exists t, txt ps t /\ In (t, c) names.
Definition node_choice_is {C} (names : list (text * C)) (n : node F) (c : C) : Prop :=
  exists t, (n = NScalar F (SStr F t) \/ exists ps, n = NSub F ps /\ txt ps t) /\ In (t, c) names.
Definition policy_is := choice_is policy_names.
Definition guard_type_is := choice_is guard_names.
(** A protocol: one of the two names, or a WebSocket configuration *)
Definition protocol_is (n : node F) (p : protocol) : Prop :=
  node_choice_is protocol_names n p \/
  exists m w key how, n = NMap F m /\ holds m (chars "websocketConfig") (NMap F w) /\
    field_is w (chars "routeKey") (fun v t => scalar_is v (SStr F t)) key /\
    field_is w (chars "authStrategy") (node_choice_is strategy_names) how /\
    p = WebSocketConfig key how.

Definition shared_is (x : shared F) (r : rshared) : Prop :=
  both txt (hc_location F x) (rhc_location r) /\
  both txt (hc_runtime F x) (rhc_runtime r) /\
  both int_is (hc_memory F x) (rhc_memory r) /\
  both int_is (hc_timeout F x) (rhc_timeout r) /\
  both bool_is (hc_tracing F x) (rhc_tracing r) /\
  both (named txt) (hc_env F x) (rhc_env r).
Definition handler_is (x : handler F) (r : rhandler) : Prop :=
  both txt (ha_name F x) (rha_name r) /\
  both txt (ha_location F x) (rha_location r) /\
  txt (ha_handler F x) (rha_handler r) /\
  both txt (ha_runtime F x) (rha_runtime r) /\
  both int_is (ha_memory F x) (rha_memory r) /\
  both int_is (ha_timeout F x) (rha_timeout r) /\
  both bool_is (ha_tracing F x) (rha_tracing r) /\
  both (named txt) (ha_env F x) (rha_env r).
Definition storage_is (x : storage) (r : rstorage) : Prop :=
  txt (os_bucket x) (ros_bucket r) /\ Forall2 (choice_is storage_event_names) (os_events x) (ros_events r).
Definition stream_is (x : stream F) (r : rstream) : Prop :=
  txt (st_id F x) (rst_id r) /\ both int_is (so_batch F (st_options F x)) (rst_batch r) /\
  both bool_is (so_partial F (st_options F x)) (rst_partial r) /\ both bool_is (so_beginning F (st_options F x)) (rst_beginning r).
Inductive event_source_is : event_source F -> revent_source -> Prop :=
| es_storage x r : storage_is x r -> event_source_is (FromStorage F x) (RFromStorage r)
| es_database x r : stream_is x r -> event_source_is (FromDatabase F x) (RFromDatabase r)
| es_data x r : stream_is x r -> event_source_is (FromData F x) (RFromData r).
Definition event_is (x : event F) (r : revent) : Prop := fst r = fst x /\ event_source_is (snd x) (snd r).
Definition consumer_is (x : consumer F) (r : rconsumer) : Prop :=
  both txt (co_source F x) (rco_source r) /\
  both int_is (co_batch F x) (rco_batch r) /\
  both int_is (co_visibility F x) (rco_visibility r) /\
  both int_is (co_wait F x) (rco_wait r) /\
  both bool_is (co_partial F x) (rco_partial r) /\
  both txt (co_routing F x) (rco_routing r) /\
  both (named event_is) (co_events F x) (rco_events r).
Definition cors_is (x : cors F) (r : rcors) : Prop :=
  both bool_is (cr_credentials F x) (rcr_credentials r) /\
  both (Forall2 txt) (cr_origins F x) (rcr_origins r) /\
  both (Forall2 txt) (cr_methods F x) (rcr_methods r) /\
  both (Forall2 txt) (cr_headers F x) (rcr_headers r) /\
  both (Forall2 txt) (cr_expose F x) (rcr_expose r) /\
  both int_is (cr_age F x) (rcr_age r).
Inductive cors_choice_is : cors_choice F -> rcors_choice -> Prop :=
| cc_text ps t : txt ps t -> cors_choice_is (CorsText F ps) (RCorsText t)
| cc_config x r : cors_is x r -> cors_choice_is (CorsConfig F x) (RCorsConfig r).
Definition base_is (x : base F) (r : rbase) : Prop :=
  protocol_is (bp_protocol F x) (rbp_protocol r) /\
  txt (bp_path F x) (rbp_path r).
Inductive base_path_is : base_path F -> rbase_path -> Prop :=
| bpi_text ps t : txt ps t -> base_path_is (BaseText F ps) (RBaseText t)
| bpi_config x r : base_is x r -> base_path_is (BaseConfig F x) (RBaseConfig r).
Definition domain_is (x : domain F) (r : rdomain) : Prop :=
  txt (dm_name F x) (rdm_name r) /\
  Forall2 base_path_is (dm_paths F x) (rdm_paths r) /\
  both bool_is (dm_normalize F x) (rdm_normalize r) /\
  txt (dm_certificate F x) (rdm_certificate r) /\
  both policy_is (dm_policy F x) (rdm_policy r).
Definition source_is (x : source F) (r : rsource) : Prop :=
  protocol_is (vs_protocol F x) (rvs_protocol r) /\
  txt (vs_source F x) (rvs_source r).
Inductive value_source_is : value_source F -> rvalue_source -> Prop :=
| vsi_text ps t : txt ps t -> value_source_is (SourceText F ps) (RSourceText t)
| vsi_config x r : source_is x r -> value_source_is (SourceConfig F x) (RSourceConfig r).
Definition guard_is (x : guard F) (r : rguard) : Prop :=
  guard_type_is (gd_type F x) (rgd_type r) /\
  both txt (gd_issuer F x) (rgd_issuer r) /\
  both value_source_is (gd_token F x) (rgd_token r) /\
  both (Forall2 txt) (gd_audience F x) (rgd_audience r).
Definition auth_is (x : auth F) (r : rauth) : Prop :=
  both txt (au_default F x) (rau_default r) /\ named guard_is (au_guards F x) (rau_guards r).
Definition api_is (x : api F) (r : rapi) : Prop :=
  Forall2 protocol_is (ap_protocols F x) (rap_protocols r) /\
  both cors_choice_is (ap_cors F x) (rap_cors r) /\
  both domain_is (ap_domain F x) (rap_domain r) /\
  both auth_is (ap_auth F x) (rap_auth r) /\
  both bool_is (ap_tracing F x) (rap_tracing r).
Definition config_is (x : config) (r : rconfig) : Prop :=
  both txt (cf_name x) (rcf_name r) /\
  both (Forall2 txt) (cf_plaintext x) (rcf_plaintext r).
Definition bucket_is (x : bucket) (r : rbucket) : Prop :=
  both txt (bk_name x) (rbk_name r).
Definition topic_is (x : topic F) (r : rtopic) : Prop :=
  both txt (tp_name F x) (rtp_name r) /\
  both bool_is (tp_fifo F x) (rtp_fifo r).
Definition queue_is (x : queue F) (r : rqueue) : Prop :=
  both txt (qu_name F x) (rqu_name r) /\
  both bool_is (qu_fifo F x) (rqu_fifo r) /\
  both int_is (qu_visibility F x) (rqu_visibility r).
Definition metadata_is (x : metadata F) (r : rmetadata F) : Prop :=
  txt (me_name F x) (rme_name F r) /\
  both (named scalar_is) (me_annotations F x) (rme_annotations F r) /\
  rme_labels F r = me_labels F x.
Inductive spec_is : spec F -> rspec F -> Prop :=
| sp_handler x r : handler_is x r -> spec_is (PHandler F x) (RHandler F r)
| sp_api x r : api_is x r -> spec_is (PApi F x) (RApi F r)
| sp_consumer x r : consumer_is x r -> spec_is (PConsumer F x) (RConsumer F r)
| sp_schedule x r : txt x r -> spec_is (PSchedule F x) (RSchedule F r)
| sp_shared x r : shared_is x r -> spec_is (PShared F x) (RShared F r)
| sp_workflow x r : workflow_is F parse_f64 env x r -> spec_is (PWorkflow F x) (RWorkflow F r)
| sp_config x r : config_is x r -> spec_is (PConfig F x) (RConfig F r)
| sp_bucket x r : bucket_is x r -> spec_is (PBucket F x) (RBucket F r)
| sp_topic x r : topic_is x r -> spec_is (PTopic F x) (RTopic F r)
| sp_queue x r : queue_is x r -> spec_is (PQueue F x) (RQueue F r).

(** The typed and free-form values in a spec, apart from those of workflows *)
Definition shared_values (x : shared F) : list (node F) := opt_list (hc_memory F x) ++ opt_list (hc_timeout F x) ++ opt_list (hc_tracing F x).
Definition handler_values (x : handler F) : list (node F) := opt_list (ha_memory F x) ++ opt_list (ha_timeout F x) ++ opt_list (ha_tracing F x).
Definition stream_values (x : stream F) : list (node F) :=
  opt_list (so_batch F (st_options F x)) ++ opt_list (so_partial F (st_options F x)) ++ opt_list (so_beginning F (st_options F x)).
Definition event_values (x : event F) : list (node F) :=
  match snd x with FromStorage _ _ => [] | FromDatabase _ s | FromData _ s => stream_values s end.
Definition consumer_values (x : consumer F) : list (node F) := opt_list (co_batch F x) ++ opt_list (co_visibility F x) ++ opt_list (co_wait F x) ++ opt_list (co_partial F x) ++ flat_map (fun l => flat_map (fun e => event_values (snd e)) l) (opt_list (co_events F x)).
Definition cors_values (x : cors F) : list (node F) := opt_list (cr_credentials F x) ++ opt_list (cr_age F x).
Definition cors_choice_values (x : cors_choice F) : list (node F) := match x with CorsText _ _ => [] | CorsConfig _ c => cors_values c end.
Definition base_values (x : base F) : list (node F) := [bp_protocol F x].
Definition base_path_values (x : base_path F) : list (node F) := match x with BaseText _ _ => [] | BaseConfig _ b => base_values b end.
Definition domain_values (x : domain F) : list (node F) := flat_map base_path_values (dm_paths F x) ++ opt_list (dm_normalize F x).
Definition source_values (x : source F) : list (node F) := [vs_protocol F x].
Definition value_source_values (x : value_source F) : list (node F) := match x with SourceText _ _ => [] | SourceConfig _ s => source_values s end.
Definition guard_values (x : guard F) : list (node F) := flat_map value_source_values (opt_list (gd_token F x)).
Definition auth_values (x : auth F) : list (node F) := flat_map (fun e => guard_values (snd e)) (au_guards F x).
Definition api_values (x : api F) : list (node F) := ap_protocols F x ++ flat_map cors_choice_values (opt_list (ap_cors F x)) ++ flat_map domain_values (opt_list (ap_domain F x)) ++ flat_map auth_values (opt_list (ap_auth F x)) ++ opt_list (ap_tracing F x).
Definition topic_values (x : topic F) : list (node F) := opt_list (tp_fifo F x).
Definition queue_values (x : queue F) : list (node F) := opt_list (qu_fifo F x) ++ opt_list (qu_visibility F x).
Definition metadata_values (x : metadata F) : list (node F) := flat_map (map snd) (opt_list (me_annotations F x)).
Definition spec_values (s : spec F) : list (node F) :=
  match s with
  | PHandler _ x => handler_values x | PApi _ x => api_values x | PConsumer _ x => consumer_values x | PShared _ x => shared_values x
  | PTopic _ x => topic_values x | PQueue _ x => queue_values x | _ => []
  end.
(** No value in it is an empty list of parts: true of what the readers deliver (C116_readable) *)
Definition readable_spec (s : spec F) : Prop :=
  Forall (proper F) (spec_values s) /\ forall w, s = PWorkflow F w -> readable_workflow F w.
Definition readable_metadata (x : metadata F) : Prop := Forall (proper F) (metadata_values x).
End Params.
