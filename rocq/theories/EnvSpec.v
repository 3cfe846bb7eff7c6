(** Vocabulary for the properties of the runtime's configuration *)
From Verif Require Import Base Chars EnvModel.
From Verif Require ResolveSpec.
Local Open Scope list_scope.

(** A 32-bit signed integer in decimal *)
Definition int32_text (t : text) (z : Z) : Prop := ResolveSpec.int_text t z /\ (- 2147483648 <= z <= 2147483647)%Z.
Definition bool_text (t : text) (b : bool) : Prop := t = chars (if b then "true" else "false").
(** The same word, in any mixture of capital and small letters *)
Definition same_letter (a b : N) : Prop := a = b \/ (65 <= a <= 90 /\ b = a + 32)%N.
Definition word (t : text) (s : string) : Prop := Forall2 same_letter t (chars s).
Definition level_name (l : level) : string := match l with LvError => "error" | LvWarn => "warn" | LvInfo => "info" | LvDebug => "debug" | LvTrace => "trace" end.
Definition level_number (l : level) : Z := match l with LvError => 1 | LvWarn => 2 | LvInfo => 3 | LvDebug => 4 | LvTrace => 5 end.
Definition level_text (t : text) (l : level) : Prop := word t (level_name l) \/ ResolveSpec.int_text t (level_number l).
Definition mode_name (m : call_mode) : string := match m with Ffi => "ffi" | Http => "http" end.
Definition platform_name (p : platform) : option string := match p with Aws => Some "aws" | Azure => Some "azure" | Gcp => Some "gcp" | Local => Some "local" | Other => None end%string.
(** Any other text stands for another platform *)
Definition platform_text (t : text) (p : platform) : Prop :=
  match platform_name p with
  | Some n => t = chars n
  | None => forall q n, platform_name q = Some n -> t <> chars n
  end.
(** A variable that must be there, one that may be, and one with a default *)
Definition needed {A} (env : env_vars) (n : string) (means : text -> A -> Prop) (a : A) : Prop :=
  exists t, env (chars n) = Some t /\ means t a.
Definition may {A} (env : env_vars) (n : string) (means : text -> A -> Prop) (o : option A) : Prop :=
  match o with Some a => needed env n means a | None => env (chars n) = None end.
Definition defaulted {A} (env : env_vars) (n : string) (means : text -> A -> Prop) (d a : A) : Prop :=
  needed env n means a \/ (env (chars n) = None /\ a = d).
(** What each field is *)
Record settings (env : env_vars) (c : config) : Prop := mk_settings {
  s_blueprint : needed env "CELERITY_BLUEPRINT" eq (cf_blueprint c);
  s_mode : needed env "CELERITY_RUNTIME_CALL_MODE" (fun t m => t = chars (mode_name m)) (cf_mode c);
  s_service : needed env "CELERITY_SERVICE_NAME" eq (cf_service c);
  s_port : needed env "CELERITY_SERVER_PORT" int32_text (cf_port c);
  s_loopback : may env "CELERITY_SERVER_LOOPBACK_ONLY" bool_text (cf_loopback c);
  s_local_port : defaulted env "CELERITY_LOCAL_API_PORT" int32_text 8592%Z (cf_local_port c);
  s_health : may env "CELERITY_USE_CUSTOM_HEALTH_CHECK" bool_text (cf_health c);
  s_collector : defaulted env "CELERITY_TRACE_OTLP_COLLECTOR_ENDPOINT" eq [] (cf_collector c);
  s_level : defaulted env "CELERITY_MAX_DIAGNOSTICS_LEVEL" level_text LvInfo (cf_level c);
  s_platform : needed env "CELERITY_RUNTIME_PLATFORM" platform_text (cf_platform c);
  s_test : defaulted env "CELERITY_TEST_MODE" bool_text false (cf_test c);
  s_api : may env "CELERITY_API_RESOURCE" eq (cf_api c);
  s_consumer : may env "CELERITY_CONSUMER_APP" eq (cf_consumer c);
  s_schedule : may env "CELERITY_SCHEDULE_APP" eq (cf_schedule c) }.
(** A TCP port *)
Definition port (z : Z) : Prop := (0 <= z <= 65535)%Z.
