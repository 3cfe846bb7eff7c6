(** The layers around every route of the HTTP server, libs/runtime/core/src/application.rs 291-338 and
    405-437 (below: A), request.rs and telemetry.rs (T); and what the process keeps of tracing. *)
From Verif Require Import Base Chars IdModel XrayModel.
Local Open Scope list_scope.

(** helpers/src/runtime_types.rs 20-28 *)
Inductive platform := OnAWS | OnAzure | OnGCP | OnLocal | OnOther.
(** The levels of the tracing crate (third-party), T 58 *)
Inductive level := LError | LWarn | LInfo | LDebug | LTrace.
(** Whether lines and spans of level info pass a filter at a level, T 58-81; the spans of this crate
    pass the directives of T 63-68 *)
Definition shows_info (l : level) : bool := match l with LError | LWarn => false | _ => true end.

(** A request as it comes to a layer: its headers, its address line, the peer that
    [into_make_service_with_connect_info] (A 327) notes, and what other layers have noted: the
    request id and where the client's address is to be found.  The rest is the route's business. *)
Record request (B : Type) := mk_request { q_headers : headers; q_line : text; q_peer : option text; q_id : option text; q_ip_source : bool; q_rest : B }.
Arguments mk_request {B}. Arguments q_headers {B}. Arguments q_line {B}. Arguments q_peer {B}. Arguments q_id {B}. Arguments q_ip_source {B}. Arguments q_rest {B}.

(** What comes out: fields of the span (A 423-437, T 139-150) and log lines: those of T 164-172, and what a
    handler says, at level info too *)
Inductive entry :=
| Opened (line : text)
| Field (name value : text)
| Received
| Processed (status : N)
| Said (line : text).

Section Layers.
Variable B R : Type.
Variable status : R -> N.
(** axum's answer, with status 500, when an extractor of a layer finds nothing (third-party) *)
Variable rejected : R.
(** A service, given whether a span is recorded, and its trace id *)
Definition service := request B -> option N -> R * list entry.

(** A route (A 303): its handler answers the request as it sees it, and says what it likes *)
Definition route (on : bool) (handler : request B -> R * list text) : service :=
  fun q _ => (fst (handler q), if on then map Said (snd (handler q)) else []).
(** T 163-174; [on]: whether lines of level info come out *)
Definition log_request (on : bool) (next : service) : service :=
  fun q x => let (r, es) := next q x in
    (r, (if on then [Received] else []) ++ es ++ (if on then [Processed (status r)] else [])).
(** [Option<TypedHeader<UserAgent>>] (third-party: axum-extra 0.9): the first such header, if it can be
    read as text; T 122, 134-137 *)
Definition user_agent (hs : headers) : text :=
  match get_header (chars "user-agent") hs with
  | Some v => match to_str v with Some t => t | None => chars "Unknown User Agent" end
  | None => chars "Unknown User Agent"
  end.
(** T 139-150; without a span, [record] does nothing *)
Definition fields (p : platform) (ip id agent : text) (x : option N) : list entry :=
  match x with
  | None => []
  | Some trace_id =>
      [Field (chars "client_ip") ip; Field (chars "trace_id") (hex 32 trace_id); Field (chars "request_id") id;
       Field (chars "connection_id") id; Field (chars "user_agent") agent]
      ++ match p with OnAWS => [Field (chars "xray_trace_id") (xray_of trace_id)] | _ => [] end
  end.
(** T 119-155.  [Extension<RequestId>] needs the id and [SecureClientIp] (third-party) the source,
    which is the peer (A 306). *)
Definition enrich_span (p : platform) (next : service) : service :=
  fun q x =>
    match q_id q, (if q_ip_source q then q_peer q else None) with
    | Some id, Some ip => let (r, es) := next q x in (r, fields p ip id (user_agent (q_headers q)) x ++ es)
    | _, _ => (rejected, [])
    end.
(** A 416-437; [new] is the id the generator gives (T 108-115): the span has no parent, as nothing
    reads one from the request *)
Definition trace_layer (on : bool) (new : N) (next : service) : service :=
  fun q _ => let (r, es) := next q (if on then Some new else None) in (r, (if on then [Opened (q_line q)] else []) ++ es).
(** A 405-437 *)
Definition attach_tracing (enabled on : bool) (p : platform) (new : N) (next : service) : service :=
  if enabled then trace_layer on new (enrich_span p next) else next.
(** A 306 *)
Definition ip_source (next : service) : service :=
  fun q x => next (mk_request (q_headers q) (q_line q) (q_peer q) (q_id q) true (q_rest q)) x.
(** request.rs 10-23 *)
Definition id_layer (generated : text) (next : service) : service :=
  fun q x => next (mk_request (q_headers q) (q_line q) (q_peer q) (Some (request_id (q_headers q) generated)) (q_ip_source q) (q_rest q)) x.
(** A 303-308: a layer that is added later is further out *)
Definition server (enabled on : bool) (p : platform) (new : N) (generated : text) (handler : request B -> R * list text) : service :=
  id_layer generated (ip_source (attach_tracing enabled on p new (log_request on (route on handler)))).
(** A 321-328: a request that comes in *)
Definition incoming (hs : headers) (line peer : text) (rest : B) : request B := mk_request hs line (Some peer) None false rest.
End Layers.

(** What the process keeps: the subscriber that is installed for all of it, by its level; and the
    applications that serve, newest first, each with whether it traces.  (Third-party: tracing.) *)
Record application := mk_application { a_tracing : bool; a_test : bool; a_level : level }.
Record process := mk_process { pr_subscriber : option level; pr_serving : list application }.
(** T 83-92: [set_default] gives a guard that undoes it when dropped, which is at once; T 93-103:
    [try_init] fails when there is a subscriber.  [exporter]: whether the exporter of T 44-56 can be made.
    Simplified: the bridge from the log crate, for which [try_init] can fail too, is left out. *)
Definition setup_tracing (exporter : bool) (a : application) (sub : option level) : option (option level) :=
  if negb exporter then None
  else if a_test a then Some sub
  else match sub with Some _ => None | None => Some (Some (a_level a)) end.
(** A 228-270; the binding of ports is in EnvModel.v *)
Definition run (exporter : bool) (a : application) (pr : process) : option process :=
  if a_tracing a then
    match setup_tracing exporter a (pr_subscriber pr) with
    | Some sub => Some (mk_process sub (a :: pr_serving pr))
    | None => None
    end
  else Some (mk_process (pr_subscriber pr) (a :: pr_serving pr)).
(** What happens in the process: an application is run; one is shut down (A 393-402), which leaves
    the subscriber. *)
Inductive event := Runs (exporter : bool) (a : application) | Shuts (k : nat).
(** The process, and whether the call failed. A 228-270, 393-402. *)
Definition happens (pr : process) (e : event) : process * bool :=
  match e with
  | Runs exporter a => match run exporter a pr with Some pr' => (pr', true) | None => (pr, false) end
  | Shuts k => (mk_process (pr_subscriber pr) (firstn k (pr_serving pr) ++ skipn (S k) (pr_serving pr)), true)
  end.
(** A 228-270, 393-402, in order *)
Fixpoint process_after (pr : process) (es : list event) : process :=
  match es with [] => pr | e :: es => process_after (fst (happens pr e)) es end.
(** A process that has not run anything *)
Definition new_process : process := mk_process None [].
(** Whether what is said and recorded at level info comes out (third-party: tracing). T 58-103. *)
Definition comes_out (pr : process) : bool := match pr_subscriber pr with Some l => shows_info l | None => false end.
