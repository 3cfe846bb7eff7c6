(** The runtime's configuration from its environment, libs/runtime/core/src/config.rs (below: C),
    and where its servers listen, application.rs (A). *)
From Verif Require Import Base Chars.
From Verif Require ResolveModel.
Local Open Scope list_scope.

(** helpers/src/env.rs 11: a variable that is missing or is not Unicode gives an error; no use
    tells the two apart. *)
Definition env_vars := text -> option text.
(** helpers/src/runtime_types.rs 5-31 *)
Inductive call_mode := Ffi | Http.
(** helpers/src/runtime_types.rs 20-28 *)
Inductive platform := Aws | Azure | Gcp | Local | Other.
(** [tracing::Level]. (third party), C 59. *)
Inductive level := LvError | LvWarn | LvInfo | LvDebug | LvTrace.
(** C 16-94 *)
Record config := mk_config {
  cf_blueprint : text; cf_mode : call_mode; cf_service : text; cf_port : Z; cf_loopback : option bool; cf_local_port : Z;
  cf_health : option bool; cf_collector : text; cf_level : level; cf_platform : platform; cf_test : bool;
  cf_api : option text; cf_consumer : option text; cf_schedule : option text }.

(** Rust [i32::from_str]: as for [i64], but with a smaller range. *)
Definition parse_i32 (t : text) : option Z :=
  match ResolveModel.parse_i64 t with
  | Some z => if ((- 2 ^ 31 <=? z) && (z <? 2 ^ 31))%Z then Some z else None
  | None => None
  end.
(** [tracing_core::Level::from_str] (third party): first as a [usize], which has no minus sign, then
    as a word in any case.  Simplified: numbers from [2^63] on are not told from other texts; none
    of them is a level. *)
Definition level_of_number (z : Z) : option level :=
  match z with 1%Z => Some LvError | 2%Z => Some LvWarn | 3%Z => Some LvInfo | 4%Z => Some LvDebug | 5%Z => Some LvTrace | _ => None end.
(** As above; C 152 *)
Definition lower (c : N) : N := if ((65 <=? c) && (c <=? 90))%N then (c + 32)%N else c.
(** [str::eq_ignore_ascii_case], as above; C 152 *)
Definition eq_ignore_case (a b : text) : bool := text_eqb (map lower a) (map lower b).
(** As above; C 152-153 *)
Definition parse_level (t : text) : option level :=
  let number :=
    match t with
    | c :: _ => if (c =? 45)%N then None else match ResolveModel.parse_i64 t with Some z => level_of_number z | None => None end
    | [] => None
    end in
  match number with
  | Some l => Some l
  | None =>
      if eq_ignore_case t (chars "error") then Some LvError
      else if eq_ignore_case t (chars "warn") then Some LvWarn
      else if eq_ignore_case t (chars "info") then Some LvInfo
      else if eq_ignore_case t (chars "debug") then Some LvDebug
      else if eq_ignore_case t (chars "trace") then Some LvTrace
      else None
  end.
(** [expect] and [unwrap]. C 100-170. *)
Definition expect {E A} (o : option A) : outcome E A := match o with Some a => Ok a | None => Panic end.
(** [.ok().map(|val| val.parse().expect(...))]. (C 125-129, 137-142, 164-170.) *)
Definition optional {E A} (parse : text -> option A) (o : option text) : outcome E (option A) :=
  match o with Some v => omap Some (expect (parse v)) | None => Ok None end.
(** C 131-133, 144-150 *)
Definition or_default (o : option text) (d : text) : text := match o with Some v => v | None => d end.
(** C 109-113 *)
Definition parse_mode (t : text) : option call_mode :=
  if text_eqb t (chars "ffi") then Some Ffi else if text_eqb t (chars "http") then Some Http else None.
(** C 156-162 *)
Definition platform_of (t : text) : platform :=
  if text_eqb t (chars "aws") then Aws else if text_eqb t (chars "azure") then Azure
  else if text_eqb t (chars "gcp") then Gcp else if text_eqb t (chars "local") then Local else Other.
(** consts.rs 29 *)
Definition default_local_port : text := chars "8592".
(** C 100-194 *)
Definition from_env (env : env_vars) : outcome Empty_set config :=
  let! blueprint := expect (env (chars "CELERITY_BLUEPRINT")) in
  let! mode_text := expect (env (chars "CELERITY_RUNTIME_CALL_MODE")) in
  let! mode := expect (parse_mode mode_text) in
  let! service := expect (env (chars "CELERITY_SERVICE_NAME")) in
  let! port_text := expect (env (chars "CELERITY_SERVER_PORT")) in
  let! port := expect (parse_i32 port_text) in
  let! loopback := optional ResolveModel.parse_bool (env (chars "CELERITY_SERVER_LOOPBACK_ONLY")) in
  let! local_port := expect (parse_i32 (or_default (env (chars "CELERITY_LOCAL_API_PORT")) default_local_port)) in
  let! health := optional ResolveModel.parse_bool (env (chars "CELERITY_USE_CUSTOM_HEALTH_CHECK")) in
  let collector := or_default (env (chars "CELERITY_TRACE_OTLP_COLLECTOR_ENDPOINT")) [] in
  let! lv := expect (parse_level (or_default (env (chars "CELERITY_MAX_DIAGNOSTICS_LEVEL")) (chars "info"))) in
  let! platform_text := expect (env (chars "CELERITY_RUNTIME_PLATFORM")) in
  let! test := optional ResolveModel.parse_bool (env (chars "CELERITY_TEST_MODE")) in
  Ok (mk_config blueprint mode service port loopback local_port health collector lv (platform_of platform_text)
        (match test with Some b => b | None => false end)
        (env (chars "CELERITY_API_RESOURCE")) (env (chars "CELERITY_CONSUMER_APP")) (env (chars "CELERITY_SCHEDULE_APP"))).

(** ** Listening *)
(** [TcpListener::bind] with the text "host:port": fails unless the port is one, and when the system
    refuses ([free] is false); port 0 is any port.  Both callers unwrap the result. *)
Inductive host := Loopback | AllInterfaces.
(** A 310-335, 272-285 *)
Definition bind (free : host -> Z -> bool) (h : host) (port : Z) : outcome Empty_set (host * Z) :=
  if ((0 <=? port) && (port <? 65536))%Z && free h port then Ok (h, port) else Panic.
(** A 310-318 *)
Definition server_host (c : config) : host :=
  match cf_loopback c with Some false => AllInterfaces | _ => Loopback end.
(** A 310-335 *)
Definition serve (free : host -> Z -> bool) (c : config) : outcome Empty_set (host * Z) := bind free (server_host c) (cf_port c).
(** A 88-90, 244-249, 272-277: only in the [http] mode *)
Definition serve_local (free : host -> Z -> bool) (c : config) : outcome Empty_set (option (host * Z)) :=
  match cf_mode c with Http => omap Some (bind free Loopback (cf_local_port c)) | Ffi => Ok None end.
(** A 173-183 *)
Definition has_health_check (c : config) : bool := negb (match cf_health c with Some b => b | None => false end).
