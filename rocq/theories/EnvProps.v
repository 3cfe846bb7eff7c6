(** Properties of the runtime's configuration *)
From Verif Require Import Base Chars EnvModel EnvSpec EnvProofs.
From Verif Require ResolveSpec.
Local Open Scope list_scope.

(** C85: the configuration is what the variables say, each field from its own variable; *)
Theorem C85_exact env c : from_env env = Ok c <-> settings env c.
Proof. apply from_env_iff. Qed.
(** when they say nothing, starting panics; *)
Theorem C85_otherwise env : from_env env = Panic <-> ~ exists c, settings env c.
Proof.
  destruct (from_env env) as [c|[]|] eqn:E.
  - split; [discriminate|]. intros N. elim N. exists c. now apply C85_exact.
  - split; [|reflexivity]. intros _ [c H]. apply C85_exact in H. congruence.
Qed.
(** it depends on no other variable. *)
Definition names : list string := ["CELERITY_BLUEPRINT"; "CELERITY_RUNTIME_CALL_MODE"; "CELERITY_SERVICE_NAME"; "CELERITY_SERVER_PORT"; "CELERITY_SERVER_LOOPBACK_ONLY"; "CELERITY_LOCAL_API_PORT"; "CELERITY_USE_CUSTOM_HEALTH_CHECK"; "CELERITY_TRACE_OTLP_COLLECTOR_ENDPOINT"; "CELERITY_MAX_DIAGNOSTICS_LEVEL"; "CELERITY_RUNTIME_PLATFORM"; "CELERITY_TEST_MODE"; "CELERITY_API_RESOURCE"; "CELERITY_CONSUMER_APP"; "CELERITY_SCHEDULE_APP"]%string.
Theorem C85_only env env' : (forall n, In n names -> env (chars n) = env' (chars n)) -> from_env env = from_env env'.
Proof. intros H. unfold from_env. rewrite !H by (cbn; tauto). reflexivity. Qed.
(** A text has one meaning. *)
Theorem C85_one env c c' : settings env c -> settings env c' -> c = c'.
Proof. rewrite <- !C85_exact. congruence. Qed.

(** C86: a missing variable gives the documented default: the local port, the level, the test mode,
    the loopback interface and the health check do; *)
Theorem C86_defaults env c : from_env env = Ok c ->
  (env (chars "CELERITY_LOCAL_API_PORT") = None -> cf_local_port c = 8592%Z) /\
  (env (chars "CELERITY_MAX_DIAGNOSTICS_LEVEL") = None -> cf_level c = LvInfo) /\
  (env (chars "CELERITY_TEST_MODE") = None -> cf_test c = false) /\
  (env (chars "CELERITY_SERVER_LOOPBACK_ONLY") = None -> server_host c = Loopback) /\
  (env (chars "CELERITY_USE_CUSTOM_HEALTH_CHECK") = None -> has_health_check c = true).
Proof.
  intros H. apply C85_exact in H. destruct H as [_ _ _ _ E5 E6 E7 _ E9 _ E11 _ _ _].
  assert (D : forall A n (m : text -> A -> Prop) d a, defaulted env n m d a -> env (chars n) = None -> a = d) by (intros A n m d a [(t & -> & _)|[_ ->]]; [discriminate|reflexivity]).
  assert (M : forall A n (m : text -> A -> Prop) o, may env n m o -> env (chars n) = None -> o = None) by (intros A n m [a|]; [intros (t & -> & _); discriminate|reflexivity]).
  unfold server_host, has_health_check. repeat split; intros N.
  - now apply D in E6.
  - now apply D in E9.
  - now apply D in E11.
  - apply M in E5; [now rewrite E5|exact N].
  - apply M in E7; [now rewrite E7|exact N].
Qed.
(** the platform does not: without it the runtime does not start; *)
Theorem C86_platform_refuted env : env (chars "CELERITY_RUNTIME_PLATFORM") = None -> from_env env = Panic.
Proof. intros N. apply C85_otherwise. intros [c [_ _ _ _ _ _ _ _ _ (t & E & _) _ _ _ _]]. congruence. Qed.
(** nor does the collector of traces: its address is empty, not the documented one. *)
Theorem C86_collector_refuted env c : env (chars "CELERITY_TRACE_OTLP_COLLECTOR_ENDPOINT") = None -> from_env env = Ok c -> cf_collector c = [] /\ cf_collector c <> chars "http://otelcollector:4317".
Proof.
  intros N H. apply C85_exact in H. destruct H as [_ _ _ _ _ _ _ E _ _ _ _ _ _]. assert (cf_collector c = []) as -> by (destruct E as [(t & E & _)|[_ E]]; [congruence|exact E]). split; [reflexivity|discriminate].
Qed.

(** C87: a server listens on the configured port, if it is a port and free; *)
Theorem C87_listens free c : port (cf_port c) -> free (server_host c) (cf_port c) = true -> serve free c = Ok (server_host c, cf_port c).
Proof.
  intros [P1 P2] F. unfold serve, bind. rewrite F. destruct (Z.leb_spec 0 (cf_port c)); [|lia]. destruct (Z.ltb_spec (cf_port c) 65536); [reflexivity|lia].
Qed.
Theorem C87_local free c : port (cf_local_port c) -> free Loopback (cf_local_port c) = true ->
  serve_local free c = Ok (match cf_mode c with Http => Some (Loopback, cf_local_port c) | Ffi => None end).
Proof.
  intros [P1 P2] F. unfold serve_local, bind. rewrite F. destruct (cf_mode c); [reflexivity|]. destruct (Z.leb_spec 0 (cf_local_port c)); [|lia]. destruct (Z.ltb_spec (cf_local_port c) 65536); [reflexivity|lia].
Qed.
(** but numbers that are no ports are accepted, and the server panics when it starts. *)
Theorem C87_accepted_refuted env c z : from_env env = Ok c -> (- 2147483648 <= z <= 2147483647)%Z -> ~ port z -> forall t, ResolveSpec.int_text t z ->
  exists c', from_env (fun n => if text_eqb n (chars "CELERITY_SERVER_PORT") then Some t else env n) = Ok c' /\ cf_port c' = z /\ forall free, serve free c' = Panic.
Proof.
  intros H R NP t T. apply C85_exact in H.
  set (c' := mk_config (cf_blueprint c) (cf_mode c) (cf_service c) z (cf_loopback c) (cf_local_port c) (cf_health c) (cf_collector c) (cf_level c) (cf_platform c) (cf_test c) (cf_api c) (cf_consumer c) (cf_schedule c)).
  exists c'. split; [|split; [reflexivity|]].
  - apply C85_exact. destruct H. constructor; cbn [c' cf_blueprint cf_mode cf_service cf_port cf_loopback cf_local_port cf_health cf_collector cf_level cf_platform cf_test cf_api cf_consumer cf_schedule]; try assumption. exists t. split; [reflexivity|]. split; assumption.
  - intros free. unfold serve, bind. cbn [c' cf_port]. unfold port in NP. destruct (Z.leb_spec 0 z), (Z.ltb_spec z 65536); cbn; try reflexivity. lia.
Qed.

(** C88: the server takes requests from elsewhere only when this was asked for; the API for handlers
    never does, and is there only in the [http] mode. *)
Theorem C88_server free env c h p : from_env env = Ok c -> serve free c = Ok (h, p) -> (h = AllInterfaces <-> env (chars "CELERITY_SERVER_LOOPBACK_ONLY") = Some (chars "false")).
Proof.
  intros H S. apply C85_exact in H. destruct H as [_ _ _ _ E _ _ _ _ _ _ _ _ _]. unfold serve, bind in S. destruct (_ && _); [|discriminate]. injection S as <- _. unfold server_host, may in *. destruct (cf_loopback c) as [[|]|].
  - destruct E as (t & -> & ->). split; discriminate.
  - destruct E as (t & -> & ->). split; reflexivity.
  - rewrite E. split; discriminate.
Qed.
Theorem C88_local free env c h p : from_env env = Ok c -> serve_local free c = Ok (Some (h, p)) -> h = Loopback /\ env (chars "CELERITY_RUNTIME_CALL_MODE") = Some (chars "http").
Proof.
  intros H S. apply C85_exact in H. destruct H as [_ (t & E & M) _ _ _ _ _ _ _ _ _ _ _ _]. unfold serve_local, bind in S. destruct (cf_mode c); [discriminate|]. destruct (_ && _); [|discriminate]. injection S as <- _. split; [reflexivity|]. rewrite E, M. reflexivity.
Qed.

(** Examples *)
Definition ex_vars : list (string * string) := [("CELERITY_BLUEPRINT", "app.yaml"); ("CELERITY_RUNTIME_CALL_MODE", "http"); ("CELERITY_SERVICE_NAME", "orders"); ("CELERITY_SERVER_PORT", "8080"); ("CELERITY_MAX_DIAGNOSTICS_LEVEL", "Debug"); ("CELERITY_RUNTIME_PLATFORM", "aws"); ("CELERITY_SERVER_LOOPBACK_ONLY", "false")]%string.
Definition ex_env : env_vars := fun n => match find (fun kv => text_eqb n (chars (fst kv))) ex_vars with Some (_, v) => Some (chars v) | None => None end.
Definition ex_config : config := mk_config (chars "app.yaml") Http (chars "orders") 8080 (Some false) 8592 None [] LvDebug Aws false None None None.
Example C85_nonvacuous : from_env ex_env = Ok ex_config /\ from_env (fun n => if text_eqb n (chars "CELERITY_SERVER_PORT") then Some (chars "80a") else ex_env n) = Panic.
Proof. split; reflexivity. Qed.
Example C86_nonvacuous : ex_env (chars "CELERITY_TRACE_OTLP_COLLECTOR_ENDPOINT") = None /\ ex_env (chars "CELERITY_LOCAL_API_PORT") = None /\ from_env ex_env = Ok ex_config /\
  (fun n => if text_eqb n (chars "CELERITY_RUNTIME_PLATFORM") then None else ex_env n) (chars "CELERITY_RUNTIME_PLATFORM") = None.
Proof. repeat split; reflexivity. Qed.
Example C87_nonvacuous : port (cf_port ex_config) /\ serve (fun _ _ => true) ex_config = Ok (AllInterfaces, 8080%Z) /\ ~ port 70000 /\ ResolveSpec.int_text (chars "70000") 70000.
Proof.
  split; [split; cbn; lia|]. split; [reflexivity|]. split; [unfold port; lia|]. split; [lia|]. left.
  change (chars "70000") with ((((([Z.to_N (48 + 7)] ++ [Z.to_N (48 + 0)]) ++ [Z.to_N (48 + 0)]) ++ [Z.to_N (48 + 0)])) ++ [Z.to_N (48 + 0)])%list. change 70000%Z with (10 * (10 * (10 * (10 * 7 + 0) + 0) + 0) + 0)%Z.
  repeat (apply ResolveSpec.dm_more; [|lia]). apply ResolveSpec.dm_one. lia.
Qed.
Example C88_nonvacuous : serve (fun _ _ => true) ex_config = Ok (AllInterfaces, 8080%Z) /\ serve_local (fun _ _ => true) ex_config = Ok (Some (Loopback, 8592%Z)).
Proof. split; reflexivity. Qed.
Print Assumptions C85_exact.
Print Assumptions C85_otherwise.
Print Assumptions C85_only.
Print Assumptions C85_one.
Print Assumptions C86_defaults.
Print Assumptions C86_platform_refuted.
Print Assumptions C86_collector_refuted.
Print Assumptions C87_listens.
Print Assumptions C87_local.
Print Assumptions C87_accepted_refuted.
Print Assumptions C88_server.
Print Assumptions C88_local.
