(** Setting up an application from its blueprint: libs/runtime/core/src/transform_config.rs
    (below: T), blueprint_helpers.rs (B) and application.rs (A).

    The blueprint is the resolved one (see [BlueprintModel]); here a hash map is the list of its
    entries in the order in which it is iterated, without repeated keys. *)
From Verif Require Import Base Chars.
Local Open Scope list_scope.

(** blueprint.rs 100-120; a number is given by how it prints *)
Inductive scalar := SStr (t : text) | SNum (shown : text) | SBool (b : bool).
(** blueprint.rs 111-120 (Display) *)
Definition show (v : scalar) : text := match v with SStr t => t | SNum t => t | SBool true => chars "true" | SBool false => chars "false" end.
(** blueprint.rs 163-184 *)
Inductive rtype := THandler | TApi | THandlerConfig | TOther.
(** blueprint.rs 162-163: the derived PartialEq *)
Definition rtype_eqb (a b : rtype) : bool :=
  match a, b with THandler, THandler | TApi, TApi | THandlerConfig, THandlerConfig | TOther, TOther => true | _, _ => false end.
(** What a handler's spec, a handler config and the shared handler config have in common; other
    fields are not used. (blueprint.rs 236-276 and SharedHandlerConfig; read in T 350-437). *)
Record source := mk_source { so_location : option text; so_timeout : option Z; so_tracing : option bool }.
(** blueprint.rs 335-355; of the WebSocket configuration, the route key *)
Inductive protocol := PHttp | PWebSocket | PWebSocketConfig (route_key : option text).
(** blueprint.rs 219-234; [SpOther] is every spec that T does not look into *)
Inductive spec := SpHandler (s : source) | SpHandlerConfig (s : source) | SpApi (ps : list protocol) (tracing : option bool) | SpOther.
(** blueprint.rs 130-140 *)
Record resource := mk_resource { r_type : rtype; r_labels : option (list (text * text)); r_annotations : option (list (text * scalar)); r_spec : spec; r_selector : option (list (text * text)) }.
(** blueprint.rs 40-51; of the metadata, the shared handler config *)
Record blueprint := mk_blueprint { b_resources : list (text * resource); b_shared : option source }.

(** T 28-33 and config.rs 205-250; the fields [auth] and [cors] are always empty *)
Record handler := mk_handler { h_name : text; h_handler : text; h_at : text * text; h_location : text; h_timeout : Z; h_tracing : bool }.
(** config.rs (ApiConfig, HttpConfig, WebSocketConfig) as built in T 27-75; auth and cors are always empty *)
Record api_config := mk_api { ac_http : option (list handler * list text); ac_ws : option (list handler * list text * text); ac_tracing : bool }.
(** errors.rs (ConfigError) as used in T 97, 169, 237, 269, 281, 377: the texts are not modelled *)
Inductive cerr := ApiMissing | ApiError.

(** HashMap::get, as in B 27-28, T 112, 119 *)
Fixpoint find_key {A} (k : text) (m : list (text * A)) : option A :=
  match m with [] => None | (k', v) :: m' => if text_eqb k k' then Some v else find_key k m' end.

(** B 14-45: the comparison of the values is only used for [is_some] *)
Definition matches (key value : text) (t : rtype) (r : resource) : bool :=
  match r_labels r with
  | Some labels => match option_map (fun v => text_eqb v value) (find_key key labels) with Some _ => rtype_eqb (r_type r) t | None => false end
  | None => false
  end.
(** B 14-45 *)
Definition select_resources (sel : option (list (text * text))) (b : blueprint) (t : rtype) : list (text * resource) :=
  match sel with
  | Some by_label => flat_map (fun kv => filter (fun nr => matches (fst kv) (snd kv) t (snd nr)) (b_resources b)) by_label
  | None => []
  end.

(** consts.rs. consts.rs 2: *)
Definition a_http : text := chars "celerity.handler.http".
(** consts.rs 5 *)
Definition a_method : text := chars "celerity.handler.http.method".
(** consts.rs 8 *)
Definition a_path : text := chars "celerity.handler.http.path".
(** consts.rs 11 *)
Definition a_ws : text := chars "celerity.handler.websocket".
(** consts.rs 17 *)
Definition a_route : text := chars "celerity.handler.websocket.route".
(** consts.rs 20 *)
Definition max_timeout : Z := 3600.
(** consts.rs 23 *)
Definition default_timeout : Z := 60.
(** consts.rs 35 *)
Definition default_key : text := chars "event".

(** T 78-100 *)
Definition get_api (b : blueprint) (name : option text) : option resource :=
  option_map snd (find (fun nr => match name with Some n => text_eqb (fst nr) n && rtype_eqb (r_type (snd nr)) TApi | None => rtype_eqb (r_type (snd nr)) TApi end) (b_resources b)).

(** Option::or_else, T 356-372, 392-407, 419-435 *)
Definition or_else {A} (o p : option A) : option A := match o with Some a => Some a | None => p end.
(** Option::and_then, T 358, 365, 394, 401 *)
Definition bind_opt {A B} (o : option A) (f : A -> option B) : option B := match o with Some a => f a | None => None end.
(** The handler config that is used. (T 306, 357-363, 393-397, 420-426: another spec gives nothing). *)
Definition config_source (c : option (text * resource)) : option source :=
  bind_opt c (fun nr => match r_spec (snd nr) with SpHandlerConfig s => Some s | _ => None end).
(** T 350-382 *)
Definition resolve_location (s : source) (c : option (text * resource)) (shared : option source) : outcome cerr text :=
  match or_else (so_location s) (or_else (bind_opt (config_source c) so_location) (bind_opt shared so_location)) with
  | Some l => Ok l
  | None => Err ApiError
  end.
(** T 384-410 *)
Definition resolve_timeout (s : source) (c : option (text * resource)) (shared : option source) : Z :=
  match or_else (or_else (option_map (fun t => Z.max t max_timeout) (so_timeout s)) (option_map (fun t => Z.max t max_timeout) (bind_opt (config_source c) so_timeout)))
                (bind_opt shared so_timeout) with
  | Some t => t
  | None => default_timeout
  end.
(** T 412-437 *)
Definition resolve_tracing (s : source) (c : option (text * resource)) (shared : option source) : bool :=
  match or_else (so_tracing s) (or_else (bind_opt (config_source c) so_tracing) (bind_opt shared so_tracing)) with
  | Some t => t
  | None => false
  end.

(** T 453-470 *)
Definition slash : N := 47.
(** T 457 *)
Definition c_open : N := 123.
(** T 457 *)
Definition c_close : N := 125.
(** T 459 *)
Definition c_plus : N := 43.
(** split, T 455 *)
Fixpoint split_slash (t : text) : list text :=
  match t with
  | [] => [[]]
  | c :: t' => if (c =? slash)%N then [] :: split_slash t' else match split_slash t' with p :: ps => (c :: p) :: ps | [] => [[c]] end
  end.
(** join, T 469 *)
Fixpoint join_slash (ps : list text) : text :=
  match ps with [] => [] | [p] => p | p :: ps' => p ++ slash :: join_slash ps' end.
(** Without its last character, if it is this one. (T 457-459). *)
Definition strip_last (c : N) (t : text) : option text :=
  match rev t with c' :: r => if (c' =? c)%N then Some (rev r) else None | [] => None end.
(** T 456-467 *)
Definition axum_part (p : text) : text :=
  match p with
  | c :: p' =>
      if (c =? c_open)%N then
        match strip_last c_close p' with
        | Some inner => match strip_last c_plus inner with Some n => 42%N :: n | None => 58%N :: inner end
        | None => p
        end
      else p
  | [] => p
  end.
(** T 453-470 *)
Definition to_axum_path (t : text) : text := join_slash (map axum_part (split_slash t)).

(** T 143-174, 290-318 and 244-274, 320-348: the first linked handler config is used *)
Definition define (b : blueprint) (nr : text * resource) (at_ : text * text) : outcome cerr handler :=
  match r_spec (snd nr) with
  | SpHandler s =>
      let c := hd_error (select_resources (r_selector (snd nr)) b THandlerConfig) in
      match resolve_location s c (b_shared b) with
      | Ok l => Ok (mk_handler [] (fst nr) at_ l (resolve_timeout s c (b_shared b)) (resolve_tracing s c (b_shared b)))
      | Err e => Err e
      | Panic => Panic
      end
  | _ => Err ApiError
  end.
(** The annotations are there and the one named [a] is [true]. (T 110-114, 185-189). *)
Definition annotated (a : text) (nr : text * resource) : option (list (text * scalar)) :=
  match r_annotations (snd nr) with
  | Some m => match find_key a m with Some (SBool true) => Some m | _ => None end
  | None => None
  end.
(** T 118-125, 193-196 *)
Definition with_default (o : option scalar) (d : text) : text := match o with Some v => show v | None => d end.
(** T 118-125 *)
Definition http_at (m : list (text * scalar)) : text * text :=
  (with_default (find_key a_method m) (chars "GET"), to_axum_path (with_default (find_key a_path m) (chars "/"))).
(** T 214-241 *)
Definition is_ws_config (p : protocol) : bool := match p with PWebSocketConfig _ => true | _ => false end.
(** T 217-241 *)
Definition route_key (s : spec) : outcome cerr text :=
  match s with
  | SpApi ps _ => Ok (match find is_ws_config ps with Some (PWebSocketConfig (Some k)) => k | _ => default_key end)
  | _ => Err ApiError
  end.
(** The loops, T 102-141 and 176-210; [seen] are the names of the handlers collected so far
    (T 276-288) *)
Fixpoint collect (b : blueprint) (a : text) (at_ : list (text * scalar) -> outcome cerr (text * text)) (ts : list (text * resource)) (seen : list text) : outcome cerr (list handler * list text) :=
  match ts with
  | [] => Ok ([], seen)
  | nr :: ts' =>
      match annotated a nr with
      | None => collect b a at_ ts' seen
      | Some m =>
          if existsb (text_eqb (fst nr)) seen then Err ApiError
          else match at_ m with
               | Ok p =>
                   match define b nr p with
                   | Ok h => match collect b a at_ ts' (seen ++ [fst nr]) with Ok (hs, seen') => Ok (h :: hs, seen') | Err e => Err e | Panic => Panic end
                   | Err e => Err e
                   | Panic => Panic
                   end
               | Err e => Err e
               | Panic => Panic
               end
      end
  end.
(** T 102-141 *)
Definition collect_http b ts seen := collect b a_http (fun m => Ok (http_at m)) ts seen.
(** A WebSocket handler is at a route, with the key of the API's spec. T 176-215. *)
Definition collect_ws b (s : spec) ts seen :=
  collect b a_ws (fun m => match route_key s with Ok k => Ok (k, with_default (find_key a_route m) (chars "$default")) | Err e => Err e | Panic => Panic end) ts seen.
(** is_empty, T 51 and 65 *)
Definition nonempty {A} (l : list A) : bool := match l with [] => false | _ => true end.
(** T 439-446 *)
Definition api_tracing (s : spec) : bool := match s with SpApi _ (Some t) => t | _ => false end.
(** T 24-76; the WebSocket server's own key is always the default one *)
Definition collect_api_config (b : blueprint) (name : option text) : outcome cerr api_config :=
  match get_api b name with
  | None => Err ApiMissing
  | Some api =>
      let ts := select_resources (r_selector api) b THandler in
      match collect_http b ts [] with
      | Ok (hs, seen) =>
          match collect_ws b (r_spec api) ts seen with
          | Ok (ws, _) =>
              Ok (mk_api (if nonempty hs then Some (hs, []) else None)
                         (if nonempty ws then Some (ws, [], default_key) else None)
                         (api_tracing (r_spec api)))
          | Err e => Err e
          | Panic => Panic
          end
      | Err e => Err e
      | Panic => Panic
      end
  end.

(** A 442-466 *)
Definition websocket_base_path (c : api_config) (paths : list text) : outcome cerr text :=
  match paths, ac_http c with
  | [], Some _ => Err ApiError
  | [], None => Ok (chars "/")
  | p :: _, _ => Ok p
  end.
(** The HTTP server, A 166-210: its health check, and where and how it takes WebSocket clients:
    the path, the key and the routes with a handler.  Simplified: the connection registry is in
    [ClusterModel], axum is not modelled. *)
Record server := mk_server { sv_health : bool; sv_ws : option (text * text * list text) }.
(** A 166-210 *)
Definition setup_server (c : api_config) (custom_health : bool) : outcome cerr server :=
  match ac_ws c with
  | Some (_, paths, key) =>
      match websocket_base_path c paths with
      | Ok p => Ok (mk_server (negb custom_health) (Some (p, key, [])))
      | Err e => Err e
      | Panic => Panic
      end
  | None => Ok (mk_server (negb custom_health) None)
  end.
(** A 73-129: the application's API and server; consumers and schedules are never set *)
Record application := mk_app { app_api : option api_config; app_server : option server }.
(** A 73-129 *)
Definition setup (b : blueprint) (name : option text) (custom_health : bool) : outcome cerr application :=
  match collect_api_config b name with
  | Ok c => match setup_server c custom_health with Ok s => Ok (mk_app (Some c) (Some s)) | Err e => Err e | Panic => Panic end
  | Err ApiMissing => Ok (mk_app None None)
  | Err e => Err e
  | Panic => Panic
  end.
