(** How the SDKs call handlers and answer requests: libs/runtime/sdk/node/src/lib.rs (below: N),
    python/src/lib.rs (P) and, in bindgen-ffi/src, application.rs (FA), response.rs (FR),
    http_handler.rs (FH), app_config.rs (FC). *)
From Verif Require Import Base Chars.
From Verif Require ApiModel EnvModel ResolveModel RouteModel.
Local Open Scope list_scope.

(** Bodies and header values: N 165-255 *)
Definition bytes := list N.
(** What a handler returns: N 113-118, P 158-163, FR 26-30.  The entries of a map are in the order in
    which it gives them. *)
Record response := mk_response { rs_status : N; rs_headers : option (list (text * text)); rs_body : option text }.
(** What is sent to the client. (axum; N 121-130). *)
Record reply := mk_reply { rp_status : N; rp_headers : list (text * text); rp_body : text }.
(** A handler's result, or the message of its failure. N 316-332, P 338-349, FA 112-143. *)
Inductive result := Returned (r : response) | Failed (message : text).

Section Http.
(** Parts of the http crate and of serde (third party): which texts are header names and header
    values, and the JSON text [{"message": ...}] *)
Variable name_ok value_ok : text -> bool.
Variable error_json : text -> text.
(** Decoding UTF-8 (standard library) *)
Variable utf8 : bytes -> option text.

(** unwrap_or_default: N 123-128, P 168-173, FR 35-40 *)
Definition or_empty {A} (o : option (list A)) : list A := match o with Some l => l | None => [] end.
(** N 120-131, P 165-176, FR 32-43: the builder keeps its first error, and [unwrap] panics on it.
    The http crate puts header names in lower case and takes status codes from 100 to 999. *)
Definition into_response (r : response) : outcome unit reply :=
  if forallb (fun h => name_ok (fst h) && value_ok (snd h)) (or_empty (rs_headers r)) then
    if ((100 <=? rs_status r) && (rs_status r <? 1000))%N
    then Ok (mk_reply (rs_status r) (map (fun h => (map EnvModel.lower (fst h), snd h)) (or_empty (rs_headers r))) (or_empty (rs_body r)))
    else Panic
  else Panic.
(** N 376-380, P 438-441, FH 42-46: [Json(self).into_response()] *)
Definition error_response (message : text) : reply :=
  mk_reply 200 [(chars "content-type", chars "application/json")] (error_json message).
(** axum's [IntoResponse for Result]. (N 310-332). *)
Definition answer (r : result) : outcome unit reply :=
  match r with Returned x => into_response x | Failed m => Ok (error_response m) end.

(** A request as it comes in: header values are bytes; the body is all there, or breaks off. (axum; N 165-181, 220-255). *)
Inductive source := Whole (b : bytes) | Broken.
(** axum, as taken apart in N 165-181 *)
Record request := mk_request { rq_method : text; rq_uri : text; rq_headers : list (text * bytes); rq_body : source }.
(** [HeaderValue::to_str] (third party): only visible ASCII, blanks and tabs. N 209. *)
Definition to_str (v : bytes) : option text := if forallb (fun c => ((32 <=? c) && (c <? 127)) || (c =? 9))%N v then Some v else None.
(** HashMap::get, P 221 *)
Fixpoint get {A} (k : text) (m : list (text * A)) : option A :=
  match m with [] => None | (k', v) :: m => if text_eqb k' k then Some v else get k m end.
(** [usize::from_str]: a sign can only be plus; no overflow in 64 bits *)
Definition parse_usize (t : text) : option Z :=
  let num ds := match ds with [] => None | _ => match ResolveModel.digits_value 0 ds with Some v => if (v <? 2 ^ 64)%Z then Some v else None | None => None end end in
  match t with c :: ds => if (c =? 43)%N then num ds else num t | [] => None end.

(** * Node, N 133-256 *)
Inductive js_body := JsBytes (b : bytes) | JsSource (s : option source) | JsEmpty.
(** N 140-146 *)
Record js_request := mk_js { js_body_of : js_body; js_parts : request }.
(** N 165-181 *)
Definition from_axum_req (r : request) : js_request :=
  let n := match get (chars "content-length") (rq_headers r) with
           | Some v => match to_str v with Some t => match parse_usize t with Some n => n | None => 0 end | None => 0 end
           | None => 0
           end%Z in
  mk_js (if (n >? 0)%Z then JsSource (Some (rq_body r)) else JsEmpty) r.
(** N 191-199 *)
Definition js_method (r : js_request) : text := rq_method (js_parts r).
(** N 197-199 *)
Definition js_uri (r : js_request) : text := rq_uri (js_parts r).
(** N 203-215: collecting into a map keeps the last value of a name *)
Fixpoint insert {A} (k : text) (v : A) (m : list (text * A)) : list (text * A) :=
  match m with [] => [(k, v)] | (k', v') :: m => if text_eqb k' k then (k, v) :: m else (k', v') :: insert k v m end.
(** N 203-215 *)
Fixpoint collect_headers (hs : list (text * bytes)) (m : list (text * text)) : outcome unit (list (text * text)) :=
  match hs with
  | [] => Ok m
  | (k, v) :: hs => match to_str v with Some t => collect_headers hs (insert k t m) | None => Panic end
  end.
(** N 203-215 *)
Definition js_headers (r : js_request) : outcome unit (list (text * text)) := collect_headers (rq_headers (js_parts r)) [].
(** N 220-255: the text, or an error.  The second result is what later calls see. *)
Definition decoded (b : bytes) : outcome unit (option text) := match utf8 b with Some t => Ok (Some t) | None => Err tt end.
(** N 220-255 *)
Definition js_body_call (r : js_request) : outcome unit (option text) * js_request :=
  match js_body_of r with
  | JsBytes b => (decoded b, r)
  | JsSource None => (Panic, r)
  | JsSource (Some Broken) => (Err tt, mk_js (JsSource None) (js_parts r))
  | JsSource (Some (Whole b)) => (decoded b, mk_js (JsBytes b) (js_parts r))
  | JsEmpty => (Ok None, r)
  end.
(** N 220-255, called again and again *)
Fixpoint js_body_calls (n : nat) (r : js_request) : list (outcome unit (option text)) :=
  match n with O => [] | S n => let (o, r) := js_body_call r in o :: js_body_calls n r end.
(** N 316-332: calling the function fails, or gives a promise, which settles after a time (in
    milliseconds) or never.  If both ends of the [select!] are ready it takes either, [tie]. *)
Inductive js_call := CallFails (message : text) | Promise (settles : option (N * result)).
(** N 316-332 *)
Definition node_result (c : js_call) (tie : bool) : result :=
  match c with
  | CallFails m => Failed m
  | Promise None => Failed (chars "handler timed out")
  | Promise (Some (t, r)) => if ((t <? 30000) || ((t =? 30000) && tie))%N then r else Failed (chars "handler timed out")
  end.

(** * Python, P 202-249 and 321-361 *)
(** P 327 *)
Definition handler_id (path method : text) : text := path ++ chars "::" ++ method.
(** P 253-258 *)
Definition registry := list (text * nat).
(** P 328-331: registering handler number [k] *)
Definition py_register (reg : registry) (path method : text) (k : nat) : registry := insert (handler_id path method) k reg.
(** P 321-361, called again and again *)
Definition py_registry (regs : list (text * text * nat)) : registry := fold_left (fun reg x => py_register reg (fst (fst x)) (snd (fst x)) (snd x)) regs [].
(** A call in the queue: the request it is for, and the handler's id.  [py_calls] are the handlers
    that were called, each with the request it was called for; [py_results] the results sent back. P 203-249. *)
Record py := mk_py { py_queue : list (nat * text); py_running : option nat; py_calls : list (nat * nat); py_results : list (nat * result) }.
(** P 263-288 *)
Definition py_new : py := mk_py [] None [] [].
(** A request that the router took to the handler registered at a path and method; the worker taking
    the next call; the running handler ending. P 203-249, 333-351. *)
Inductive py_event := Arrives (n : nat) (r : request) (path method : text) | Takes | Ends (r : result).
(** P 342-356: the message of a failure is prefixed *)
Definition py_failed (r : result) : result := match r with Returned x => Returned x | Failed m => Failed (chars "Python error: " ++ m) end.
(** P 203-249, 333-351 *)
Definition py_step (reg : registry) (s : py) (e : py_event) : option py :=
  match e with
  | Arrives n _ path method => Some (mk_py (py_queue s ++ [(n, handler_id path method)]) (py_running s) (py_calls s) (py_results s))
  | Takes =>
      match py_running s, py_queue s with
      | None, (n, id) :: q =>
          match get id reg with
          | Some k => Some (mk_py q (Some n) (py_calls s ++ [(n, k)]) (py_results s))
          | None => Some (mk_py q None (py_calls s) (py_results s ++ [(n, py_failed (Failed (chars "Handler not found: " ++ id)))]))
          end
      | _, _ => None
      end
  | Ends r =>
      match py_running s with
      | Some n => Some (mk_py (py_queue s) None (py_calls s) (py_results s ++ [(n, py_failed r)]))
      | None => None
      end
  end.
(** P 203-249, 333-351, in order *)
Fixpoint py_steps (reg : registry) (s : py) (es : list py_event) : option py :=
  match es with [] => Some s | e :: es => match py_step reg s e with Some s => py_steps reg s es | None => None end end.

(** * The C interface *)
(** FR 7-24 and 61-84: what a handler can do with the response it was given.  Headers are dropped. *)
Inductive ffi_op := SetStatus (s : N) | SetHeaders (h : list (text * text)) | Send (body : text).
(** FR 7-13 *)
Record ffi_response := mk_ffi { fr_status : N; fr_sent : option response }.
(** FA 114-118 *)
Definition ffi_new : ffi_response := mk_ffi 0 None.
(** FR 14-24, 61-84 *)
Definition ffi_do (f : ffi_response) (o : ffi_op) : ffi_response :=
  match o with
  | SetStatus s => mk_ffi s (fr_sent f)
  | SetHeaders _ => f
  | Send b => mk_ffi (fr_status f) (match fr_sent f with Some x => Some x | None => Some (mk_response (fr_status f) None (Some b)) end)
  end.
(** FA 112-143: the handler is called with the response; what it does during the call, and then later
    with the time in milliseconds since the call returned.  The response lives in the future that
    waits: when this is over, because of a result or of the time, the handler's pointer dangles, and
    using it is a [fault]. *)
Fixpoint ffi_later (f : ffi_response) (ops : list (N * ffi_op)) : result * bool :=
  match fr_sent f with
  | Some r => (Returned r, match ops with [] => false | _ => true end)
  | None =>
      match ops with
      | [] => (Failed (chars "Handler timed out"), false)
      | (t, o) :: ops => if (t <? 30000)%N then ffi_later (ffi_do f o) ops else (Failed (chars "Handler timed out"), true)
      end
  end.
(** FA 112-143 *)
Definition ffi_call (during : list ffi_op) (later : list (N * ffi_op)) : result * bool := ffi_later (fold_left ffi_do during ffi_new) later.
End Http.

(** FA 103-147 *)
Definition ffi_register valid clash (o : option RouteModel.router) (k : nat) : outcome unit (option RouteModel.router) :=
  RouteModel.register valid clash o (chars "/orders/:orderId") (chars "POST") (RouteModel.User k).
(** FA 72-99, FC 111-152: the handlers that setup found, one by one.  [CString::new] refuses a text
    with a zero in it. *)
Definition cstring (t : text) : outcome unit text := if existsb (N.eqb 0) t then Panic else Ok t.
(** FC 135-150 *)
Definition ffi_definition (h : ApiModel.handler) : outcome unit (text * text * text * text) :=
  let! p := cstring (snd (ApiModel.h_at h)) in
  let! m := cstring (fst (ApiModel.h_at h)) in
  let! f := cstring (ApiModel.h_handler h) in
  let! l := cstring (ApiModel.h_location h) in
  Ok (p, m, f, l).
(** FA 72-99: only those of the HTTP API *)
Definition ffi_handlers (a : ApiModel.application) : list ApiModel.handler :=
  match ApiModel.app_api a with Some c => match ApiModel.ac_http c with Some (hs, _) => hs | None => [] end | None => [] end.
(** One call of the iterator, and [n] of them. FC 135-152. *)
Definition ffi_next (hs : list ApiModel.handler) : outcome unit (option (text * text * text * text)) * list ApiModel.handler :=
  match hs with [] => (Ok None, []) | h :: hs => (omap Some (ffi_definition h), hs) end.
(** FC 154-158, called again and again *)
Fixpoint ffi_take (n : nat) (hs : list ApiModel.handler) : list (outcome unit (option (text * text * text * text))) :=
  match n with O => [] | S n => let (x, hs) := ffi_next hs in x :: ffi_take n hs end.
